(** * ProofsKeep: what the parser functions can change

    For a reflexive and transitive relation [R] on cursors that allows some elementary changes,
    each function of the parser relates initial and final state by [R]. *)
From Coq Require Import Lia.
From Verif Require Export Logic.
Local Open Scope go_scope.

Section Keep.
Context {E : Env}.
Notation cursor := (cursor E).
Context (R : cursor -> cursor -> Prop) (Rrefl : forall c, R c c) (Rtrans : forall a b c, R a b -> R b c -> R a c).
Notation kp := (keeps R).

Ltac kstep :=
  first
  [ assumption
  | match goal with
    | |- forall _, keeps _ _ => intros ?
    | |- forall _ _, keeps _ _ => intros ? ?
    | |- keeps _ (ret _) => apply (keeps_ret R Rrefl)
    | |- keeps _ (raise _) => apply (keeps_raise R Rrefl)
    | |- keeps _ (lift _) => apply (keeps_lift R Rrefl)
    | |- keeps _ (gets _) => apply (keeps_gets R Rrefl)
    | |- keeps _ (bind _ _) => apply (keeps_bind R Rtrans)
    | |- keeps _ (attempt _) => apply (keeps_attempt R)
    | |- keeps _ (if _ then _ else _) => apply (keeps_if R)
    | |- keeps _ (match ?x with _ => _ end) => destruct x
    | |- keeps _ (let _ := _ in _) => cbv zeta
    | |- keeps _ (cParseUnit _ _) => intros ?; apply Rrefl
    end ].
Ltac ks := repeat kstep.

Lemma kp_gets {A} (f : cursor -> A) : kp (gets f). Proof. apply (keeps_gets R Rrefl). Qed.
Lemma kp_foldM {A L} (f : L -> A -> @C E L) xs l : (forall l a, kp (f l a)) -> kp (foldM f l xs).
Proof. intros. apply (keeps_foldM R Rrefl Rtrans). assumption. Qed.
Lemma kp_mapM {A} (f : A -> @C E unit) l : (forall a, kp (f a)) -> kp (mapM f l).
Proof. intros. apply (keeps_mapM R Rrefl Rtrans). assumption. Qed.

Lemma kp_topStyle : kp topStyle.
Proof. intros c. unfold topStyle. destruct (c_stack c); apply Rrefl. Qed.
Lemma kp_cParseUnit s p : kp (cParseUnit s p). Proof. intros c. apply Rrefl. Qed.
Lemma kp_readGradURL v d : kp (readGradURL v d).
Proof. unfold readGradURL. ks. Qed.
Lemma kp_parseDashes l : kp (parseDashes l).
Proof. induction l; cbn [parseDashes]; ks. Qed.
Lemma kp_theGrad : kp theGrad. Proof. intros c. unfold theGrad. destruct (c_grad c); apply Rrefl. Qed.

(** the path cursor *)
Context (Rpc : forall p c, R c (c_set_pc p c)).
Lemma kp_liftP {A} (m : M (pcur E) A) : kp (liftP m).
Proof. intros c. unfold liftP. destruct (m (c_pc c)). apply Rpc. Qed.
Lemma kp_handleError s : kp (handleError s).
Proof. unfold handleError. ks. apply kp_liftP. Qed.
Lemma kp_transformStep m t : kp (transformStep m t).
Proof. unfold transformStep. ks; apply kp_liftP. Qed.
Lemma kp_parseTransform v : kp (parseTransform v).
Proof. unfold parseTransform. ks. { apply kp_topStyle. } apply kp_foldM. intros; apply kp_transformStep. Qed.
Lemma kp_curXY : kp curXY. Proof. apply kp_gets. Qed.
Lemma kp_cPoints : kp cPoints. Proof. apply kp_gets. Qed.
Lemma kp_onCPath f : kp (onCPath f). Proof. apply kp_liftP. Qed.

Section Push.
Context (Rheap : forall h c, R c (c_set_svg (sv_set_mheap h (c_svg c)) c)).
Lemma kp_appendStr s id : kp (appendStr s id).
Proof. intros c. unfold appendStr. destruct (sl_len s <? sl_cap s); cbn; apply Rheap. Qed.
Lemma kp_readStyleAttr st k v : kp (readStyleAttr st k v).
Proof.
  unfold readStyleAttr.
  repeat (kstep || apply kp_readGradURL || apply kp_handleError || apply kp_cParseUnit || apply kp_parseDashes || apply kp_parseTransform || apply kp_appendStr).
Qed.
Lemma kp_stylePair st p : kp (stylePair st p).
Proof. unfold stylePair. ks. apply kp_readStyleAttr. Qed.
(** [pushStyle] relates the states if pushing does *)
Lemma kp_pushStyle attrs : (forall s c, R c (c_set_stack s c)) -> kp (pushStyle attrs).
Proof.
  intros Hs. unfold pushStyle. ks. { apply kp_topStyle. } { apply kp_foldM. apply kp_stylePair. } apply keeps_modify. intros c. apply Hs.
Qed.
(** on success it pushes one style and changes nothing else but what [R] allows *)
Lemma pushStyle_inv attrs c c' : pushStyle attrs c = (c', Ret tt) ->
  exists st c1, R c c1 /\ c' = c_set_stack (st :: c_stack c1) c1.
Proof.
  unfold pushStyle, bind. destruct (topStyle c) as [c0 [top|e| |]] eqn:H0; try discriminate.
  unfold topStyle in H0. destruct (c_stack c) as [|s l] eqn:Hc; [discriminate|]. injection H0 as <- <-.
  pose proof (kp_foldM stylePair (stylePairs (E := E) attrs) s kp_stylePair c) as K.
  destruct (foldM stylePair s (stylePairs (E := E) attrs) c) as [c1 [st|e| |]]; try discriminate. cbn in K.
  unfold modify. intros H. injection H as <-. eauto.
Qed.
End Push.

(** ** Shapes: only the path cursor changes *)
Lemma kp_rectAttr l a : kp (rectAttr l a).
Proof. destruct l as [[[[[x y] w] h] rx] ry]. unfold rectAttr. ks. Qed.
Lemma kp_rectF fuel attrs : kp (rectF fuel attrs).
Proof.
  unfold rectF. ks. { apply kp_foldM. apply kp_rectAttr. } all: (apply kp_curXY || apply kp_onCPath).
Qed.
Lemma kp_circleAttr l a : kp (circleAttr l a).
Proof. destruct l as [[[x y] w] h]. unfold circleAttr. ks. Qed.
Lemma kp_circleF attrs : kp (circleF attrs).
Proof. unfold circleF. ks. { apply kp_foldM. apply kp_circleAttr. } all: (apply kp_curXY || apply kp_liftP). Qed.
Lemma kp_lineAttr l a : kp (lineAttr l a).
Proof. destruct l as [[[x y] w] h]. unfold lineAttr. ks. Qed.
Lemma kp_lineF attrs : kp (lineF attrs).
Proof. unfold lineF. ks; try apply kp_liftP. apply kp_foldM. apply kp_lineAttr. Qed.
Lemma kp_polyAttr l a : kp (polyAttr l a).
Proof. unfold polyAttr, cGetPoints. ks; try apply kp_liftP; apply kp_cPoints. Qed.
Lemma kp_polylineF attrs : kp (polylineF attrs).
Proof.
  unfold polylineF. ks; try apply kp_liftP. { apply kp_foldM. apply kp_polyAttr. } all: try apply kp_cPoints.
  apply (keeps_loop R Rrefl Rtrans). ks; apply kp_liftP.
Qed.
Lemma kp_polygonF attrs : kp (polygonF attrs).
Proof. unfold polygonF. ks; try apply kp_polylineF; try apply kp_liftP. Qed.
Lemma kp_pathF attrs : kp (pathF attrs).
Proof. unfold pathF. apply kp_mapM. ks. apply kp_liftP. Qed.

(** ** The other elements *)
Section Others.
Context (Rsvg : forall v w h c, R c (c_set_svg (sv_set_viewBox v (sv_set_width w (sv_set_height h (c_svg c)))) c)).
Lemma kp_svgAttr l a : kp (svgAttr l a).
Proof.
  assert (H1 : forall v, kp (onSvg (sv_set_viewBox v))).
  { intros v c. pose proof (Rsvg v (sv_width (c_svg c)) (sv_height (c_svg c)) c) as H. destruct c as [? [] ? ? ? ? ? ? ? ? ? ?]. exact H. }
  assert (H2 : forall v, kp (onSvg (sv_set_width v))).
  { intros v c. pose proof (Rsvg (sv_viewBox (c_svg c)) v (sv_height (c_svg c)) c) as H. destruct c as [? [] ? ? ? ? ? ? ? ? ? ?]. exact H. }
  assert (H3 : forall v, kp (onSvg (sv_set_height v))).
  { intros v c. pose proof (Rsvg (sv_viewBox (c_svg c)) (sv_width (c_svg c)) v c) as H. destruct c as [? [] ? ? ? ? ? ? ? ? ? ?]. exact H. }
  destruct l as [w h]. unfold svgAttr, cGetPoints. ks; try apply kp_liftP; try apply kp_cPoints; auto.
Qed.
Lemma kp_svgF attrs : kp (svgF attrs).
Proof.
  unfold svgF. ks.
  - intros c. pose proof (Rsvg (mkB (fnum E 0) (fnum E 0) (fnum E 0) (fnum E 0)) (sv_width (c_svg c)) (sv_height (c_svg c)) c) as H. destruct c as [? [] ? ? ? ? ? ? ? ? ? ?]. exact H.
  - apply kp_foldM. apply kp_svgAttr.
  - intros c. cbv [onSvg modify fst].
    match goal with |- R _ (c_set_svg (sv_set_viewBox ?b _) _) => pose proof (Rsvg b (sv_width (c_svg c)) (sv_height (c_svg c)) c) as H end.
    destruct c as [? [] ? ? ? ? ? ? ? ? ? ?]. exact H.
Qed.
Context (Rmask : forall m b c, R c (c_set_mask m (c_set_inMask b c))).
Lemma kp_maskAttr l a : kp (maskAttr l a).
Proof. destruct l as [[[[i x] y] w] h]. unfold maskAttr. ks. Qed.
Lemma kp_maskF attrs : kp (maskF attrs).
Proof. unfold maskF. ks. { apply kp_foldM. apply kp_maskAttr. } apply keeps_modify. intros. apply Rmask. Qed.
Context (Rtitle : forall b l c, R c (c_set_svg (sv_set_titles l (c_svg c)) (c_set_inTitle b c)))
        (Rdesc : forall b l c, R c (c_set_svg (sv_set_descs l (c_svg c)) (c_set_inDesc b c))).
Lemma kp_titleF attrs : kp (titleF attrs).
Proof. intros c. unfold titleF. cbn. exact (Rtitle true (sv_titles (c_svg c) ++ [EmptyString]) c). Qed.
Lemma kp_descF attrs : kp (descF attrs).
Proof. intros c. unfold descF. cbn. exact (Rdesc true (sv_descs (c_svg c) ++ [EmptyString]) c). Qed.
Context (Rdefs : forall b c, R c (c_set_inDefs b c)).
Lemma kp_defsF attrs : kp (defsF attrs).
Proof. intros c. apply Rdefs. Qed.
Context (Rgrad : forall p h b c, R c (c_set_grad p (c_set_gheap h (c_set_inGrad b c))))
        (Rgrads : forall g c, R c (c_set_svg (sv_set_grads g (c_svg c)) c)).
Lemma kp_newGrad : kp newGrad.
Proof.
  intros c. unfold newGrad. cbn.
  pose proof (Rgrad (Some (List.length (c_gheap c))) (c_gheap c ++ [mkGrad None [] (sv_viewBox (c_svg c)) identity PadSpread ObjectBoundingBox]) (c_inGrad c) c) as H.
  destruct c; exact H.
Qed.
Lemma kp_onGrad f : kp (onGrad f).
Proof.
  intros c. unfold onGrad. destruct (c_grad c) as [p|] eqn:Hp; [|apply Rrefl]. destruct (nth_error (c_gheap c) p) as [g|]; [|apply Rrefl].
  pose proof (Rgrad (c_grad c) (set_nth (c_gheap c) p (f g)) (c_inGrad c) c) as H. destruct c; exact H.
Qed.
Lemma kp_registerGrad id : kp (registerGrad id).
Proof. intros c. unfold registerGrad. destruct (c_grad c); [apply Rgrads|apply Rrefl]. Qed.
Lemma kp_readGradAttr a : kp (readGradAttr a).
Proof. unfold readGradAttr. ks; try apply kp_onGrad. apply kp_parseTransform. Qed.
Lemma kp_linAttr l a : kp (linAttr l a).
Proof. destruct l as [[[x y] w] h]. unfold linAttr. ks. { apply kp_registerGrad. } apply kp_readGradAttr. Qed.
Lemma kp_radAttr l a : kp (radAttr l a).
Proof. destruct l as [[[[[x y] w] h] r] fr]. unfold radAttr. ks. { apply kp_registerGrad. } apply kp_readGradAttr. Qed.
Lemma kp_setInGrad b : kp (modify (c_set_inGrad b)).
Proof. intros c. pose proof (Rgrad (c_grad c) (c_gheap c) b c) as H. destruct c; exact H. Qed.
Lemma kp_linearGradientF attrs : kp (linearGradientF attrs).
Proof.
  unfold linearGradientF. ks. { apply kp_setInGrad. } { apply kp_newGrad. } { apply kp_foldM. apply kp_linAttr. } { apply kp_theGrad. } apply kp_onGrad.
Qed.
Lemma kp_radialGradientF attrs : kp (radialGradientF attrs).
Proof.
  unfold radialGradientF. ks. { apply kp_setInGrad. } { apply kp_newGrad. } { apply kp_foldM. apply kp_radAttr. } { apply kp_theGrad. } apply kp_onGrad.
Qed.
Lemma kp_stopAttr s a : kp (stopAttr s a).
Proof. unfold stopAttr. ks. Qed.
Lemma kp_stopF attrs : kp (stopF attrs).
Proof. unfold stopF. ks. { apply kp_foldM. apply kp_stopAttr. } apply kp_onGrad. Qed.

(** all elements but use *)
Lemma kp_drawFunc fuel name df attrs : drawFunc fuel name = Some df -> kp (df attrs).
Proof.
  unfold drawFunc. intros H.
  repeat match type of H with (if ?b then _ else _) = _ => destruct b; [injection H as <-|] end; try discriminate.
  - apply kp_svgF. - apply (keeps_ret R Rrefl). - apply kp_lineF. - apply kp_stopF. - apply kp_rectF. - apply kp_circleF. - apply kp_circleF.
  - apply kp_polylineF. - apply kp_polygonF. - apply kp_pathF. - apply kp_descF. - apply kp_defsF. - apply kp_titleF.
  - apply kp_linearGradientF. - apply kp_radialGradientF. - apply kp_maskF.
Qed.
(** use, for a relation that also allows pushing and popping *)
Lemma kp_popStyle : (forall s c, R c (c_set_stack s c)) -> kp popStyle.
Proof. intros H c. unfold popStyle. destruct (c_stack c); [apply Rrefl|apply H]. Qed.
Lemma kp_useAttr l a : kp (useAttr l a).
Proof. destruct l as [[i x] y]. unfold useAttr. ks. Qed.
Context (Rheap : forall h c, R c (c_set_svg (sv_set_mheap h (c_svg c)) c)).
Section Use.
Context (Rstack : forall s c, R c (c_set_stack s c)).
Lemma kp_useLoop draw defs : (forall t df attrs, draw t = Some df -> kp (df attrs)) -> kp (useLoop draw defs).
Proof.
  intros Hd. induction defs as [|d defs IH]; cbn [useLoop]; [apply (keeps_ret R Rrefl)|].
  apply (keeps_if R). { ks. apply kp_popStyle, Rstack. }
  apply (keeps_bind R Rtrans). { apply kp_pushStyle; assumption. } intros _.
  destruct (draw (d_tag d)) as [df|] eqn:Hdr; [|apply kp_handleError]. ks. { eapply Hd; eassumption. } apply kp_popStyle, Rstack.
Qed.
Lemma kp_useF fuel : forall attrs, kp (useF fuel attrs).
Proof.
  induction fuel as [|fuel IH]; intros attrs; cbn [useF]; [apply (keeps_nofuel R Rrefl)|].
  apply (keeps_bind R Rtrans). { apply kp_foldM. apply kp_useAttr. } intros [[href x] y].
  apply (keeps_bind R Rtrans). { apply keeps_modify. intros; apply Rpc. } intros _.
  apply (keeps_deferred R Rtrans). { intros; apply Rpc. } ks.
  apply kp_useLoop. intros t df at' Hdf. destruct (String.eqb t "use"); [injection Hdf as <-; apply IH|].
  eapply kp_drawFunc; eassumption.
Qed.
Lemma kp_drawFuncs fuel name df attrs : drawFuncs fuel name = Some df -> kp (df attrs).
Proof.
  unfold drawFuncs. destruct (String.eqb name "use"); intros H; [injection H as <-; apply kp_useF|eapply kp_drawFunc; eassumption].
Qed.
End Use.
Context (Rpaths : forall l c, R c (c_set_svg (sv_set_paths l (c_svg c)) c)).
Lemma kp_collectPath : kp collectPath.
Proof.
  assert (Hm : forall m c, R c (c_set_mask m c)).
  { intros m c. pose proof (Rmask m (c_inMask c) c) as H. destruct c; exact H. }
  intros c. unfold collectPath, bind, gets.
  destruct (pc_path (c_pc c)) eqn:Hp; [apply Rrefl|].
  destruct (c_inMask c).
  - destruct (c_mask c) as [m|].
    + unfold topStyle. destruct (c_stack c); [apply Rrefl|]. cbn. eapply Rtrans; [apply Hm|apply Rpc].
    + cbn. apply Rpc.
  - unfold topStyle. destruct (c_stack c); [apply Rrefl|]. cbn. eapply Rtrans; [apply Rpaths|apply Rpc].
Qed.
Context (Rdef : forall l d c, R c (c_set_curDef l (c_set_svg (sv_set_defs d (c_svg c)) c))).
Lemma kp_flushDefs : kp flushDefs.
Proof. apply keeps_modify. intros c. destruct (c_curDef c) as [|d l]; [apply Rrefl|]. apply Rdef. Qed.
Lemma kp_addDef d : kp (addDef d).
Proof. intros c. pose proof (Rdef (c_curDef c ++ [d]) (sv_defs (c_svg c)) c) as H. destruct c as [? [] ? ? ? ? ? ? ? ? ? ?]. exact H. Qed.
Lemma kp_readStartElement fuel name attrs :
  (forall df, drawFuncs fuel name = Some df -> kp (df attrs)) -> kp (readStartElement fuel name attrs).
Proof.
  intros Hd. unfold readStartElement. apply (keeps_bind R Rtrans); [apply kp_gets|]. intros c0. cbv zeta.
  apply (keeps_if R). { ks. { apply kp_flushDefs. } apply kp_addDef. }
  destruct (drawFuncs fuel name) as [df|] eqn:Hn; [|apply kp_handleError].
  ks. { eapply Hd. reflexivity. } apply kp_collectPath.
Qed.
Context (Rmasks : forall m c, R c (c_set_svg (sv_set_masks m (c_svg c)) c)).
Lemma kp_setInMask b : kp (modify (c_set_inMask b)).
Proof. intros c. pose proof (Rmask (c_mask c) b c) as H. destruct c; exact H. Qed.
Lemma kp_setMask m : kp (modify (c_set_mask m)).
Proof. intros c. pose proof (Rmask m (c_inMask c) c) as H. destruct c; exact H. Qed.
Lemma kp_setInTitle b : kp (modify (c_set_inTitle b)).
Proof. intros c. pose proof (Rtitle b (sv_titles (c_svg c)) c) as H. destruct c as [? [] ? ? ? ? ? ? ? ? ? ?]. exact H. Qed.
Lemma kp_setInDesc b : kp (modify (c_set_inDesc b)).
Proof. intros c. pose proof (Rdesc b (sv_descs (c_svg c)) c) as H. destruct c as [? [] ? ? ? ? ? ? ? ? ? ?]. exact H. Qed.
Lemma kp_onTitles l : kp (onSvg (sv_set_titles l)).
Proof. intros c. pose proof (Rtitle (c_inTitle c) l c) as H. destruct c as [? [] ? ? ? ? ? ? ? ? ? ?]. exact H. Qed.
Lemma kp_onDescs l : kp (onSvg (sv_set_descs l)).
Proof. intros c. pose proof (Rdesc (c_inDesc c) l c) as H. destruct c as [? [] ? ? ? ? ? ? ? ? ? ?]. exact H. Qed.
(** the end of an element, after the style has been popped *)
Definition endRest (name : string) : @C E unit :=
  if String.eqb name "g" then
    b <- gets c_inDefs ;; if (b : bool) then addDef (mkDef EmptyString "endg" []) else ret tt
  else if String.eqb name "mask" then
    m <- gets c_mask ;;
    (match m with
     | Some m => onSvg (fun s => sv_set_masks (mput (mk_id m) m (sv_masks s)) s) ;;
                 modify (c_set_mask None)
     | None => ret tt
     end) ;;
    modify (c_set_inMask false)
  else if String.eqb name "title" then modify (c_set_inTitle false)
  else if String.eqb name "desc" then modify (c_set_inDesc false)
  else if String.eqb name "defs" then flushDefs ;; modify (c_set_inDefs false)
  else if String.eqb name "radialGradient" || String.eqb name "linearGradient" then
    modify (c_set_inGrad false)
  else ret tt.
Lemma endElement_rest name : endElement name = bind popStyle (fun _ => endRest name).
Proof. reflexivity. Qed.
Lemma kp_endRest name : kp (endRest name).
Proof.
  unfold endRest.
  repeat (kstep || apply kp_addDef || apply kp_setInMask || apply kp_setMask || apply kp_setInTitle || apply kp_setInDesc
   || apply kp_flushDefs || apply kp_setInGrad || (apply keeps_modify; intros ?; apply Rdefs)).
  intros c. apply Rmasks.
Qed.
Lemma kp_charData s : kp (charData s).
Proof. unfold charData. ks. { apply kp_onTitles. } apply kp_onDescs. Qed.
End Others.
End Keep.

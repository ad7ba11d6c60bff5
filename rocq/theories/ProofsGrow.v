(** * ProofsGrow: no parser step takes anything back *)
From Coq Require Import Lia.
From Verif Require Import Logic ProofsStr ProofsAttrs.
From Verif Require Export SpecGrow.
Local Open Scope go_scope.

Lemma begins_refl {A} (l : list A) : begins l l. Proof. exists []. rewrite app_nil_r. reflexivity. Qed.
Lemma begins_trans {A} (a b c : list A) : begins a b -> begins b c -> begins a c.
Proof. intros [r ->] [q ->]. exists (r ++ q). rewrite app_assoc. reflexivity. Qed.
Lemma begins_app {A} (l r : list A) : begins l (l ++ r). Proof. exists r. reflexivity. Qed.
Lemma str_assoc (a b c : string) : ((a ++ b) ++ c = a ++ (b ++ c))%string. Proof. induction a; cbn; congruence. Qed.
Lemma tg_refl l : texts_grow l l. Proof. left. apply begins_refl. Qed.
Lemma tg_trans a b c : texts_grow a b -> texts_grow b c -> texts_grow a c.
Proof.
  intros [Hab|(l0 & t & u & r & -> & ->)] Hbc.
  - destruct Hbc as [Hbc|(l0 & t & u & r & -> & ->)]; [left; eapply begins_trans; eassumption|].
    destruct Hab as [q Hq]. destruct q as [|x q] using rev_ind; [rewrite app_nil_r in Hq; subst a; right; eauto 7|]. clear IHq.
    rewrite app_assoc in Hq. apply app_inj_tail in Hq as [-> ->]. left. exists (q ++ (x ++ u)%string :: r). rewrite app_assoc. reflexivity.
  - right. destruct Hbc as [[q ->]|(l1 & t' & u' & r' & He & ->)].
    + exists l0, t, u, (r ++ q). split; [reflexivity|]. rewrite <- app_assoc. reflexivity.
    + destruct r as [|x r] using rev_ind.
      * apply app_inj_tail in He as [<- <-]. exists l0, t, (u ++ u')%string, r'. split; [reflexivity|]. rewrite str_assoc. reflexivity.
      * clear IHr. rewrite app_comm_cons, app_assoc in He. apply app_inj_tail in He as [<- <-]. exists l0, t, u, (r ++ (x ++ u')%string :: r'). split; [reflexivity|]. rewrite <- app_assoc. reflexivity.
Qed.
Lemma ids_refl {A} (m : smap A) : ids_stay m m. Proof. intros id H. exact H. Qed.
Lemma ids_trans {A} (a b c : smap A) : ids_stay a b -> ids_stay b c -> ids_stay a c. Proof. unfold ids_stay. auto. Qed.
Lemma ids_mput {A} k (v : A) m : ids_stay m (mput k v m).
Proof. intros id H. rewrite mget_put. destruct (String.eqb id k); [discriminate|exact H]. Qed.

(** ** The path cursor only adds lines to the log *)
Section Log.
Context {E : Env}.
Notation pcur := (pcur E).
Definition logs (a b : pcur) : Prop := begins (pc_log a) (pc_log b).
Lemma lg_refl a : logs a a. Proof. apply begins_refl. Qed.
Lemma lg_trans a b c : logs a b -> logs b c -> logs a c. Proof. apply begins_trans. Qed.
Ltac kf :=
  repeat first
  [ match goal with
    | |- forall _, keeps _ _ => intros ?
    | |- forall _ _, keeps _ _ => intros ? ?
    | |- keeps _ (ret _) => apply (keeps_ret logs lg_refl)
    | |- keeps _ nofuel => apply (keeps_nofuel logs lg_refl)
    | |- keeps _ (raise _) => apply (keeps_raise logs lg_refl)
    | |- keeps _ (lift _) => apply (keeps_lift logs lg_refl)
    | |- keeps _ (gets _) => apply (keeps_gets logs lg_refl)
    | |- keeps _ (modify _) => apply keeps_modify; intros ?; exact (begins_refl _)
    | |- keeps _ (onPath _) => unfold onPath
    | |- keeps _ (println _) => apply keeps_modify; intros ?; exact (begins_app _ _)
    | |- keeps _ points => unfold points
    | |- keeps _ (fxp _ _) => unfold fxp
    | |- keeps _ (fxpt _) => unfold fxpt
    | |- keeps _ (moveTo _) => unfold moveTo
    | |- keeps _ (addPlaceAt _) => unfold addPlaceAt
    | |- keeps _ (addArcFromA _) => unfold addArcFromA
    | |- keeps _ (requireSets _ _) => unfold requireSets, hasSetsOrMore
    | |- keeps _ (pnt _) => intros ?; apply lg_refl
    | |- keeps _ (valsToAbs _) => unfold valsToAbs
    | |- keeps _ (pushFloat _) => unfold pushFloat
    | |- keeps _ (loop _ _ _ _ _) => apply (keeps_loop logs lg_refl lg_trans)
    | |- keeps _ (mapM _ _) => apply (keeps_mapM logs lg_refl lg_trans)
    | |- keeps _ (bind _ _) => apply (keeps_bind logs lg_trans)
    | |- keeps _ (if _ then _ else _) => apply (keeps_if logs)
    | |- keeps _ (match ?x with _ => _ end) => destruct x
    | |- keeps _ (let _ := _ in _) => cbv zeta
    end ].
Lemma lg_pointsToAbs sz : keeps logs (pointsToAbs (E := E) sz).
Proof. intros c. unfold pointsToAbs. destruct (abs_outer _ _ _ _ _ _); exact (begins_refl _). Qed.
Lemma lg_reflectQ : keeps logs (reflectControlQuad (E := E)).
Proof. apply keeps_modify. intros c. destruct (is_key _ _); exact (begins_refl _). Qed.
Lemma lg_reflectC : keeps logs (reflectControlCube (E := E)).
Proof. apply keeps_modify. intros c. destruct (is_key _ _); exact (begins_refl _). Qed.
Lemma lg_readFloat_loop s rs : forall last b, keeps logs (readFloat_loop (E := E) s rs last b).
Proof. induction rs as [|[i n] r IH]; intros last b; cbn [readFloat_loop]; kf; apply IH. Qed.
Lemma lg_readFloat s : keeps logs (readFloat (E := E) s).
Proof. unfold readFloat. kf. apply lg_readFloat_loop. Qed.
Lemma lg_getPoints_loop s rs : forall last lr, keeps logs (getPoints_loop (E := E) s rs last lr).
Proof. induction rs as [|[i n] r IH]; intros last lr; cbn [getPoints_loop]; kf; try apply IH; apply lg_readFloat. Qed.
Lemma lg_getPoints s : keeps logs (getPoints (E := E) s).
Proof. unfold getPoints. kf; try apply lg_readFloat. apply lg_getPoints_loop. Qed.
Lemma lg_addSeg s : keeps logs (addSeg (E := E) s).
Proof.
  unfold addSeg. kf; try apply lg_getPoints. unfold segSwitch.
  kf; unfold segZ, segM, segL, segV, segH, segQ, segT, segC, segS, segA, segUnknown; kf;
    try apply lg_pointsToAbs; try apply lg_reflectQ; try apply lg_reflectC.
Qed.
Lemma lg_compilePath s : keeps logs (compilePath (E := E) s).
Proof.
  unfold compilePath, pinit. kf; try apply lg_addSeg.
  generalize (@None nat). induction (range_str s) as [|[i n] r IH]; intros o; cbn [compile_loop]; kf; try apply IH; apply lg_addSeg.
Qed.
Lemma lg_fxp x y : keeps logs (fxp (E := E) x y). Proof. kf. Qed.
Lemma lg_fxpt i : keeps logs (fxpt (E := E) i). Proof. kf. Qed.
Lemma lg_ellipseAt a b c d : keeps logs (ellipseAt (E := E) a b c d). Proof. unfold ellipseAt. kf. Qed.
Lemma lg_println s : keeps logs (println (E := E) s). Proof. kf. Qed.
Lemma lg_onPath f : keeps logs (onPath (E := E) f). Proof. kf. Qed.
End Log.

(** ** The document *)
Section Grow.
Context {E : Env}.
Notation cursor := (cursor E).
Lemma gt_refl (s : svg E) : grows_to s s.
Proof. constructor; first [apply begins_refl|apply tg_refl|apply ids_refl]. Qed.
Lemma gt_trans (a b c : svg E) : grows_to a b -> grows_to b c -> grows_to a c.
Proof. intros [] []. constructor; first [eapply begins_trans; eassumption|eapply tg_trans; eassumption|eapply ids_trans; eassumption]. Qed.
Definition gr (c c' : cursor) : Prop := grows_to (c_svg c) (c_svg c') /\ logs (c_pc c) (c_pc c').
Lemma gr_refl c : gr c c. Proof. split; [apply gt_refl|apply lg_refl]. Qed.
Lemma gr_trans a b c : gr a b -> gr b c -> gr a c.
Proof. intros [] []. split; [eapply gt_trans|eapply lg_trans]; eassumption. Qed.
Lemma gr_svg (c c' : cursor) : grows_to (c_svg c) (c_svg c') -> c_pc c' = c_pc c -> gr c c'.
Proof. intros H He. split; [exact H|rewrite He; apply lg_refl]. Qed.
Lemma gr_liftP {A} (m : M (pcur E) A) : keeps logs m -> keeps gr (liftP m).
Proof. intros H c. unfold liftP. specialize (H (c_pc c)). destruct (m (c_pc c)) as [p o]. split; [apply gt_refl|exact H]. Qed.
Ltac same := split; [constructor; first [exact (begins_refl _)|exact (tg_refl _)|exact (ids_refl _)]|exact (begins_refl _)].
Ltac kstep := first
  [ assumption
  | match goal with
    | |- forall _, keeps _ _ => intros ?
    | |- forall _ _, keeps _ _ => intros ? ?
    | |- keeps _ (ret _) => apply (keeps_ret _ gr_refl)
    | |- keeps _ nofuel => apply (keeps_nofuel _ gr_refl)
    | |- keeps _ (raise _) => apply (keeps_raise _ gr_refl)
    | |- keeps _ (lift _) => apply (keeps_lift _ gr_refl)
    | |- keeps _ (gets _) => apply (keeps_gets _ gr_refl)
    | |- keeps _ cPoints => apply (keeps_gets _ gr_refl)
    | |- keeps _ curXY => apply (keeps_gets _ gr_refl)
    | |- keeps _ (bind _ _) => apply (keeps_bind _ gr_trans)
    | |- keeps _ (attempt _) => apply keeps_attempt
    | |- keeps _ (if _ then _ else _) => apply keeps_if
    | |- keeps _ (match ?x with _ => _ end) => destruct x
    | |- keeps _ (let _ := _ in _) => cbv zeta
    | |- keeps _ (cParseUnit _ _) => intros ?; apply gr_refl
    | |- keeps _ (onSvg _) => apply keeps_modify; intros ?; same
    | |- keeps _ (modify _) => apply keeps_modify; intros ?; same
    | |- keeps _ (foldM _ _ _) => apply (keeps_foldM _ gr_refl gr_trans)
    | |- keeps _ (mapM _ _) => apply (keeps_mapM _ gr_refl gr_trans)
    | |- keeps _ (loop _ _ _ _ _) => apply (keeps_loop _ gr_refl gr_trans)
    | |- keeps _ (liftP (getPoints _)) => apply gr_liftP, lg_getPoints
    | |- keeps _ (liftP (compilePath _)) => apply gr_liftP, lg_compilePath
    | |- keeps _ (liftP (fxp _ _)) => apply gr_liftP, lg_fxp
    | |- keeps _ (liftP (fxpt _)) => apply gr_liftP, lg_fxpt
    | |- keeps _ (liftP (ellipseAt _ _ _ _)) => apply gr_liftP, lg_ellipseAt
    | |- keeps _ (liftP (println _)) => apply gr_liftP, lg_println
    | |- keeps _ (liftP (onPath _)) => apply gr_liftP, lg_onPath
    | |- keeps _ (onCPath _) => unfold onCPath
    | |- keeps _ (cGetPoints _) => unfold cGetPoints
    end ].
Ltac ks := repeat kstep.
Lemma gr_handleError s : keeps gr (handleError (E := E) s). Proof. unfold handleError. ks. Qed.
Lemma gr_topStyle : keeps gr (topStyle (E := E)). Proof. intros c. unfold topStyle. destruct (c_stack c); apply gr_refl. Qed.
Lemma gr_popStyle : keeps gr (popStyle (E := E)). Proof. intros c. unfold popStyle. destruct (c_stack c); [apply gr_refl|same]. Qed.
Lemma gr_parseTransform v : keeps gr (parseTransform (E := E) v).
Proof. unfold parseTransform, transformStep. ks; apply gr_topStyle. Qed.
Lemma gr_appendStr s id : keeps gr (appendStr (E := E) s id).
Proof. intros c. unfold appendStr. destruct (sl_len s <? sl_cap s); same. Qed.
Lemma gr_parseDashes l : keeps gr (parseDashes (E := E) l). Proof. induction l; cbn [parseDashes]; ks. Qed.
Lemma gr_readStyleAttr st k v : keeps gr (readStyleAttr (E := E) st k v).
Proof. unfold readStyleAttr, readGradURL. repeat (kstep || apply gr_handleError || apply gr_parseDashes || apply gr_parseTransform || apply gr_appendStr). Qed.
Lemma gr_pushStyle attrs : keeps gr (pushStyle (E := E) attrs).
Proof. unfold pushStyle, stylePair. ks; [apply gr_topStyle|apply gr_readStyleAttr]. Qed.
Lemma gr_onGrad f : keeps gr (onGrad (E := E) f).
Proof. intros c. unfold onGrad. destruct (c_grad c); [|apply gr_refl]. destruct (nth_error _ _); [same|apply gr_refl]. Qed.
Lemma gr_registerGrad id : keeps gr (registerGrad (E := E) id).
Proof.
  intros c. unfold registerGrad. destruct (c_grad c); [|apply gr_refl].
  apply gr_svg; [|reflexivity]. constructor; first [exact (begins_refl _)|exact (tg_refl _)|exact (ids_refl _)|exact (ids_mput _ _ _)].
Qed.
Lemma gr_theGrad : keeps gr (theGrad (E := E)). Proof. intros c. unfold theGrad. destruct (c_grad c); apply gr_refl. Qed.
Lemma gr_readGradAttr a : keeps gr (readGradAttr (E := E) a).
Proof. unfold readGradAttr. repeat (kstep || apply gr_onGrad || apply gr_parseTransform). Qed.
Lemma gr_titleF attrs : keeps gr (titleF (E := E) attrs).
Proof.
  intros c. apply gr_svg; [|reflexivity]. constructor; try exact (begins_refl _); try exact (tg_refl _); try exact (ids_refl _).
  left. exact (begins_app _ _).
Qed.
Lemma gr_descF attrs : keeps gr (descF (E := E) attrs).
Proof.
  intros c. apply gr_svg; [|reflexivity]. constructor; try exact (begins_refl _); try exact (tg_refl _); try exact (ids_refl _).
  left. exact (begins_app _ _).
Qed.
Lemma gr_drawFunc fuel name df attrs : drawFunc (E := E) fuel name = Some df -> keeps gr (df attrs).
Proof.
  unfold drawFunc. intros H.
  repeat match type of H with (if ?b then _ else _) = _ => destruct b; [injection H as <-|] end; try discriminate.
  - unfold svgF, svgAttr. ks.
  - unfold gF. ks.
  - unfold lineF, lineAttr. ks.
  - unfold stopF, stopAttr. repeat (kstep || apply gr_onGrad).
  - unfold rectF, rectAttr. ks.
  - unfold circleF, circleAttr. ks.
  - unfold circleF, circleAttr. ks.
  - unfold polylineF, polyAttr. ks.
  - unfold polygonF, polylineF, polyAttr. ks.
  - unfold pathF. ks.
  - apply gr_descF.
  - unfold defsF. ks.
  - apply gr_titleF.
  - unfold linearGradientF, linAttr, newGrad. repeat (kstep || apply gr_registerGrad || apply gr_theGrad || apply gr_onGrad || apply gr_readGradAttr).
  - unfold radialGradientF, radAttr, newGrad. repeat (kstep || apply gr_registerGrad || apply gr_theGrad || apply gr_onGrad || apply gr_readGradAttr).
  - unfold maskF, maskAttr. ks.
Qed.
Lemma gr_useLoop draw defs : (forall t df attrs, draw t = Some df -> keeps gr (df attrs)) -> keeps gr (useLoop (E := E) draw defs).
Proof.
  intros Hd. induction defs as [|d defs IH]; cbn [useLoop]; [ks|].
  apply keeps_if. { ks. apply gr_popStyle. }
  apply (keeps_bind _ gr_trans). { apply gr_pushStyle. } intros _.
  destruct (draw (d_tag d)) as [df|] eqn:Hdr; [|apply gr_handleError]. ks. { eapply Hd; eassumption. } apply gr_popStyle.
Qed.
Lemma gr_useF fuel : forall attrs, keeps gr (useF (E := E) fuel attrs).
Proof.
  induction fuel as [|fuel IH]; intros attrs; cbn [useF]; [ks|].
  apply (keeps_bind _ gr_trans). { unfold useAttr. ks. } intros [[href x] y].
  apply (keeps_bind _ gr_trans). { ks. } intros _.
  apply (keeps_deferred _ gr_trans). { intros; same. } ks.
  apply gr_useLoop. intros t df at' Hdf. destruct (String.eqb t "use"); [injection Hdf as <-; apply IH|].
  eapply gr_drawFunc; eassumption.
Qed.
Lemma gr_drawFuncs fuel name df attrs : drawFuncs (E := E) fuel name = Some df -> keeps gr (df attrs).
Proof.
  unfold drawFuncs. destruct (String.eqb name "use"); intros H; [injection H as <-; apply gr_useF|eapply gr_drawFunc; eassumption].
Qed.
Lemma gr_addPath p : keeps gr (onSvg (fun s => sv_set_paths (sv_paths s ++ [p]) s)).
Proof.
  intros c. apply gr_svg; [|reflexivity]. constructor; try exact (begins_refl _); try exact (tg_refl _); try exact (ids_refl _).
  exact (begins_app _ _).
Qed.
Lemma gr_collectPath : keeps gr (collectPath (E := E)).
Proof. unfold collectPath. repeat (apply gr_addPath || apply gr_topStyle || kstep). Qed.
Lemma gr_flushDefs : keeps gr (flushDefs (E := E)).
Proof.
  apply keeps_modify. intros c. destruct (c_curDef c) as [|d l]; [apply gr_refl|].
  apply gr_svg; [|reflexivity]. constructor; first [exact (begins_refl _)|exact (tg_refl _)|exact (ids_refl _)|exact (ids_mput _ _ _)].
Qed.
Lemma gr_addMask m : keeps gr (onSvg (fun s => sv_set_masks (mput (mk_id m) m (sv_masks s)) s)).
Proof.
  intros c. apply gr_svg; [|reflexivity]. constructor; first [exact (begins_refl _)|exact (tg_refl _)|exact (ids_refl _)|exact (ids_mput _ _ _)].
Qed.
Lemma append_grow l s l' : appendLast l s = Ret l' -> texts_grow l l'.
Proof.
  unfold appendLast. intros H. right. destruct (rev l) as [|x r] eqn:Hl; [discriminate|]. injection H as <-.
  exists (rev r), x, s, []. split; [|reflexivity]. rewrite <- (rev_involutive l), Hl. reflexivity.
Qed.
Lemma gr_charData s : keeps gr (charData (E := E) s).
Proof.
  intros c. unfold charData. unfold bind at 1, gets at 1.
  assert (K1 : forall (b : bool) c1, c1 = c -> gr c1 (fst ((if b then l <- lift (appendLast (sv_titles (c_svg c)) s) ;; onSvg (sv_set_titles l) else ret tt) c1))
    /\ sv_descs (c_svg (fst ((if b then l <- lift (appendLast (sv_titles (c_svg c)) s) ;; onSvg (sv_set_titles l) else ret tt) c1))) = sv_descs (c_svg c1)).
  { intros [|] c1 ->; [|split; [apply gr_refl|reflexivity]]. unfold bind, lift. destruct (appendLast _ _) as [l|e| |] eqn:Hl; try (split; [apply gr_refl|reflexivity]).
    split; [|reflexivity]. apply gr_svg; [|reflexivity]. constructor; try exact (begins_refl _); try exact (tg_refl _); try exact (ids_refl _). exact (append_grow _ _ _ Hl). }
  assert (K2 : forall (b : bool) (c1 : cursor), sv_descs (c_svg c1) = sv_descs (c_svg c) -> gr c1 (fst ((if b then l <- lift (appendLast (sv_descs (c_svg c)) s) ;; onSvg (sv_set_descs l) else ret tt) c1))).
  { clear K1. intros [|] c1 Hd; [|apply gr_refl]. unfold bind, lift. destruct (appendLast _ _) as [l|e| |] eqn:Hl; try apply gr_refl.
    apply gr_svg; [|reflexivity]. constructor; try exact (begins_refl _); try exact (tg_refl _); try exact (ids_refl _). rewrite <- Hd in Hl. exact (append_grow _ _ _ Hl). }
  destruct (K1 (c_inTitle c) c eq_refl) as [K D]. clear K1. revert K D.
  generalize (if c_inTitle c then l <- lift (appendLast (sv_titles (c_svg c)) s) ;; onSvg (E := E) (sv_set_titles l) else ret tt). intros m K D.
  unfold bind at 1. destruct (m c) as [c1 [[]|e| |]]; try exact K.
  eapply gr_trans; [exact K|]. exact (K2 (c_inDesc c) c1 D).
Qed.
Lemma gr_stepToken fuel t : keeps gr (stepToken (E := E) fuel t).
Proof.
  destruct t as [name attrs|name|s|]; cbn [stepToken].
  - apply (keeps_bind _ gr_trans). { apply gr_pushStyle. } intros _.
    unfold readStartElement, addDef. apply (keeps_bind _ gr_trans); [ks|]. intros c0. cbv zeta.
    apply keeps_if. { ks. apply gr_flushDefs. }
    destruct (drawFuncs fuel name) as [df|] eqn:Hn; [|apply gr_handleError].
    ks. { eapply gr_drawFuncs; eassumption. } apply gr_collectPath.
  - unfold endElement, addDef. repeat (apply gr_addMask || apply gr_popStyle || apply gr_flushDefs || kstep).
  - apply gr_charData.
  - ks.
Qed.
Lemma gr_tokens fuel toks : keeps gr (mapM (stepToken (E := E) fuel) toks).
Proof. apply (keeps_mapM _ gr_refl gr_trans). apply gr_stepToken. Qed.

Lemma parse_more fuel mode toks more tm tm' (s s' : svg E) err err' log log' :
  parse fuel mode toks tm = PSvg s err log -> parse fuel mode (toks ++ more) tm' = PSvg s' err' log' ->
  grows_to s s' /\ begins log log'.
Proof.
  unfold parse. rewrite mapM_app. unfold bind.
  destruct (mapM (stepToken fuel) toks (cursor0 mode)) as [c [[]|e| |]] eqn:H1; try discriminate.
  - intros Hs. assert (s = c_svg c /\ log = pc_log (c_pc c)) as [-> ->].
    { destruct tm; [destruct (seenTag toks); [|discriminate]|]; injection Hs as <- <- <-; auto. }
    pose proof (gr_tokens fuel more c) as K. destruct (mapM (stepToken fuel) more c) as [c' o]. cbn [fst] in K. destruct K as [K1 K2].
    intros Hs'. assert (s' = c_svg c' /\ log' = pc_log (c_pc c')) as [-> ->]; [|split; assumption].
    destruct o as [[]|e| |]; try discriminate; [|injection Hs' as <- <- <-; auto].
    destruct tm'; [destruct (seenTag (toks ++ more)); [|discriminate]|]; injection Hs' as <- <- <-; auto.
  - intros Hs Hs'. injection Hs as <- <- <-. injection Hs' as <- <- <-. split; [apply gt_refl|apply begins_refl].
Qed.
(** after an error of its own the parser reads no more *)
Lemma parse_stopped fuel mode toks more tm' (r : presult E) :
  parse fuel mode toks TermEOF = r ->
  match r with PSvg _ (Some _) _ | PPanic | PNoFuel => True | _ => False end ->
  parse fuel mode (toks ++ more) tm' = r.
Proof.
  unfold parse. rewrite mapM_app. unfold bind.
  destruct (mapM (stepToken fuel) toks (cursor0 mode)) as [c [[]|e| |]]; try (intros <- _; reflexivity).
  destruct (seenTag toks); intros <-; contradiction.
Qed.
End Grow.

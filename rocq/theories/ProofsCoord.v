(** * ProofsCoord: the coordinates of parsed paths, and documents without transforms (C60) *)
From Coq Require Import ZArith Lia.
From Verif Require Export SpecNatural SpecSafe.
From Verif Require Import ProofsFlags ProofsStyle ProofsWho.
Local Open Scope go_scope.

(** ** What drawing leaves in range *)
Section Drawing.
Context {E : Env} (Hi : forall x, coordinate (f_to_i32 E x)).
Notation pcur := (pcur E).
Notation cursor := (cursor E).
Definition spot (a : pt) : Prop := coordinate (fst a) /\ coordinate (snd a).

Section State.
Context {S : Type} (pth : S -> path).
Definition yields {A} (V : A -> Prop) (m : M S A) : Prop :=
  forall s, in_range (pth s) -> in_range (pth (fst (m s))) /\ forall a, snd (m s) = Ret a -> V a.
Notation kept m := (yields (fun _ => True) m).
Lemma y_ret {A} (V : A -> Prop) a : V a -> yields V (ret a).
Proof. intros H s Hs. split; [exact Hs|]. intros b Hb. injection Hb as <-. exact H. Qed.
Lemma y_raise {A} (V : A -> Prop) e : yields V (@raise S A e). Proof. intros s Hs. split; [exact Hs|discriminate]. Qed.
Lemma y_nofuel {A} (V : A -> Prop) : yields V (@nofuel S A). Proof. intros s Hs. split; [exact Hs|discriminate]. Qed.
Lemma y_bind {A B} (V : A -> Prop) (W : B -> Prop) (m : M S A) f : yields V m -> (forall a, V a -> yields W (f a)) -> yields W (bind m f).
Proof.
  intros Hm Hf s Hs. unfold bind. destruct (Hm s Hs) as [H1 H2]. destruct (m s) as [s' [a|e| |]]; cbn [fst snd] in *; try (split; [exact H1|discriminate]).
  apply (Hf a (H2 a eq_refl) s' H1).
Qed.
Lemma y_same {A} (V : A -> Prop) (m : M S A) : keeps (fun s s' => pth s' = pth s) m -> (forall s a, snd (m s) = Ret a -> V a) -> yields V m.
Proof. intros Hm HV s Hs. split; [rewrite Hm; exact Hs|apply HV]. Qed.
Lemma y_keeps {A} (m : M S A) : keeps (fun s s' => pth s' = pth s) m -> kept m.
Proof. intros Hm. apply y_same; auto. Qed.
Lemma y_gets {A} (V : A -> Prop) (f : S -> A) : (forall s, V (f s)) -> yields V (gets f).
Proof. intros H s Hs. split; [exact Hs|]. intros b Hb. injection Hb as <-. apply H. Qed.
Lemma y_lift {A} (V : A -> Prop) (o : outcome A) : (forall a, o = Ret a -> V a) -> yields V (lift o).
Proof. intros H s Hs. split; [exact Hs|apply H]. Qed.
Lemma y_if {A} (V : A -> Prop) (b : bool) (m1 m2 : M S A) : yields V m1 -> yields V m2 -> yields V (if b then m1 else m2).
Proof. destruct b; auto. Qed.
Lemma y_attempt (m : M S unit) : kept m -> kept (attempt m).
Proof. intros Hm s Hs. destruct (Hm s Hs) as [H1 _]. unfold attempt. destruct (m s) as [s' [a|e| |]]; cbn [fst snd] in *; split; auto. Qed.
Lemma y_loop body : (forall i, kept (body i)) -> forall fuel i step bound, kept (loop fuel i step bound body).
Proof.
  intros Hb. induction fuel as [|f IH]; intros i step bound; cbn [loop]; destruct (i <? bound); try apply y_nofuel; try (apply y_ret; exact I).
  eapply y_bind; [apply Hb|]. intros _ _. apply IH.
Qed.
Lemma y_mapM {A} (f : A -> M S unit) l : (forall a, kept (f a)) -> kept (mapM f l).
Proof. intros Hf. induction l as [|a l IH]; cbn [mapM]; [apply y_ret; exact I|]. eapply y_bind; [apply Hf|]. intros _ _. exact IH. Qed.
End State.
Notation yp := (yields (pc_path (E := E))).
Notation yc := (yields (fun c : cursor => pc_path (c_pc c))).
Notation any := (fun _ => True).

Lemma range_app p q : in_range (p ++ q) <-> in_range p /\ in_range q. Proof. apply Forall_app. Qed.
Lemma range_nil : in_range []. Proof. constructor. Qed.
Lemma range_one o : Forall spot (op_points o) -> in_range [o]. Proof. intros H. constructor; [exact H|constructor]. Qed.
Lemma g_start a p : spot a -> in_range p -> in_range (pStart a p).
Proof. intros H Hp. apply range_app. split; [exact Hp|]. apply range_one. constructor; [exact H|constructor]. Qed.
Lemma g_line a p : spot a -> in_range p -> in_range (pLine a p).
Proof. intros H Hp. apply range_app. split; [exact Hp|]. apply range_one. constructor; [exact H|constructor]. Qed.
Lemma g_quad a b p : spot a -> spot b -> in_range p -> in_range (pQuad a b p).
Proof. intros H1 H2 Hp. apply range_app. split; [exact Hp|]. apply range_one. cbn. auto. Qed.
Lemma g_cube a b c p : spot a -> spot b -> spot c -> in_range p -> in_range (pCube a b c p).
Proof. intros H1 H2 H3 Hp. apply range_app. split; [exact Hp|]. apply range_one. cbn. auto. Qed.
Lemma g_stop b p : in_range p -> in_range (pStop b p).
Proof. intros Hp. destruct b; [|exact Hp]. apply range_app. split; [exact Hp|]. apply range_one. constructor. Qed.
Lemma spot_fixed (m : matrix E) a : spot (tFixed m a). Proof. split; apply Hi. Qed.
Lemma spot_toFixed (x y : F E) : spot (toFixedP x y). Proof. split; apply Hi. Qed.
Lemma spot_cur (c : pcur) x y : spot (at_cur c x y). Proof. split; apply Hi. Qed.
Hint Resolve g_start g_line g_quad g_cube g_stop spot_fixed spot_toFixed spot_cur range_nil : rng.

Lemma g_addRect x y z w r (p : path) : in_range p -> in_range (addRect (E := E) x y z w r p).
Proof. intros H. unfold addRect, aStart, aLine. auto 10 with rng. Qed.
Lemma g_arcSegs n : forall i m a r t d al s l p, in_range p -> in_range (arcSegs (E := E) n i m a r t d al s l p).
Proof. induction n as [|n IH]; intros; cbn [arcSegs]; [assumption|]. apply IH. unfold aCube. auto with rng. Qed.
Definition good (o : outcome path) : Prop := forall p, o = Ret p -> in_range p.
Lemma good_bind {A} (o : outcome A) f : (forall a, o = Ret a -> good (f a)) -> good (obind o f).
Proof. intros H p. destruct o as [a|e| |]; cbn [obind]; try discriminate. apply H; reflexivity. Qed.
Lemma good_ret p : in_range p -> good (Ret p). Proof. intros H q Hq. injection Hq as <-. exact H. Qed.
Lemma g_circArc fuel m a s t p : in_range p -> good (addCircArc (E := E) fuel m a s t p).
Proof. intros H. unfold addCircArc. apply good_bind. intros th _. cbv zeta. apply good_ret, g_arcSegs. unfold aLine. auto with rng. Qed.
Lemma g_roundGap fuel m a t l p : in_range p -> good (roundGap (E := E) fuel m a t l p).
Proof. intros H. unfold roundGap. apply good_bind. intros q Hq. apply good_ret. unfold aLine. apply g_circArc in Hq; auto with rng. Qed.
Lemma g_roundRect fuel x y z w rx ry r p : in_range p -> good (addRoundRect (E := E) fuel x y z w rx ry r p).
Proof.
  intros H. unfold addRoundRect. destruct (fleb E rx (fnum E 0) || fleb E ry (fnum E 0))%bool. { apply good_ret, g_addRect, H. }
  cbv zeta. unfold aStart, aLine.
  apply good_bind. intros p1 H1. apply g_roundGap in H1; [|auto with rng].
  apply good_bind. intros p2 H2. apply g_roundGap in H2; [|auto with rng].
  apply good_bind. intros p3 H3. apply g_roundGap in H3; [|auto with rng].
  apply good_bind. intros p4 H4. apply g_roundGap in H4; [|auto with rng].
  apply good_ret. auto with rng.
Qed.
Lemma g_ellSegs n : forall i s ra rb ex ey cx cy sT cT es dE al lx ly ldx ldy p, in_range p ->
  in_range (fst (ellSegs (E := E) n i s ra rb ex ey cx cy sT cT es dE al lx ly ldx ldy p)).
Proof.
  induction n as [|n IH]; intros; cbn [ellSegs]; [assumption|].
  destruct (if (i =? s)%Z then (ex, ey) else ellipsePointAt ra rb sT cT (fadd E es (fmul E dE (f_of_Z E i))) cx cy) as [px py].
  destruct (ellipsePrime ra rb sT cT (fadd E es (fmul E dE (f_of_Z E i)))) as [dx dy]. apply IH. auto with rng.
Qed.
Lemma g_addArc ps cx cy px py p q z : in_range p -> addArc (E := E) ps cx cy px py p = Ret (q, z) -> in_range q.
Proof.
  intros Hp. unfold addArc.
  repeat match goal with |- obind ?o _ = _ -> _ => destruct o; cbn [obind]; [|discriminate..] end.
  cbv zeta. destruct (ellipsePrime _ _ _ _ _) as [ldx ldy]. intros H. injection H as H.
  pose proof (f_equal fst H) as K. cbn [fst] in K. rewrite <- K. apply g_ellSegs, Hp.
Qed.

(** ** Path data *)
Lemma y_onPath f : (forall p, in_range p -> in_range (f p)) -> yp any (onPath f).
Proof. intros H s Hs. split; [apply H, Hs|auto]. Qed.
Lemma y_pnt i : yp any (pnt i). Proof. apply y_keeps. intros c. reflexivity. Qed.
Lemma y_fxp x y : yp spot (fxp x y). Proof. apply y_gets. intros c. apply spot_cur. Qed.
Lemma y_fxpt i : yp spot (fxpt i).
Proof. unfold fxpt. eapply y_bind; [apply y_pnt|]. intros x _. eapply y_bind; [apply y_pnt|]. intros y _. apply y_fxp. Qed.
Lemma y_modify f : (forall c : pcur, pc_path (f c) = pc_path c) -> yp any (modify f).
Proof. intros H. apply y_keeps. intros c. apply H. Qed.
Lemma y_getPoints s : yp any (getPoints s).
Proof. apply y_keeps. intros c. rewrite getPoints_numbers. reflexivity. Qed.
Ltac ystep := match goal with
  | |- forall _, _ => intros
  | |- yields _ _ (ret _) => apply y_ret; try exact I
  | |- yields _ _ (raise _) => apply y_raise
  | |- yields _ _ (bind (fxp _ _) _) => eapply y_bind; [apply y_fxp|intros ? ?]
  | |- yields _ _ (bind (fxpt _) _) => eapply y_bind; [apply y_fxpt|intros ? ?]
  | |- yields _ _ (bind (gets (fun c => at_cur _ _ _)) _) => eapply (y_bind _ spot); [apply y_gets; intros; apply spot_cur|intros ? ?]
  | |- yields _ _ (bind _ _) => eapply (y_bind _ any); [|intros ? _]
  | |- yields _ _ (if _ then _ else _) => apply y_if
  | |- yields _ _ (let _ := _ in _) => cbv zeta
  | |- yields _ _ (match ?x with _ => _ end) => destruct x
  | |- yields _ _ (modify _) => apply y_modify; intros; try reflexivity
  | |- yields _ _ (gets _) => apply y_gets; intros; exact I
  | |- yields _ _ points => apply y_gets; intros; exact I
  | |- yields _ _ (lift _) => apply y_lift; intros; exact I
  | |- yields _ _ (pnt _) => apply y_pnt
  | |- yields _ _ (onPath _) => apply y_onPath; intros; auto with rng
  | |- yields _ _ (loop _ _ _ _ _) => apply y_loop
  | |- yields _ _ (mapM _ _) => apply y_mapM
  | |- yields _ _ (attempt _) => apply y_attempt
  end.
Ltac ys := repeat ystep.
Lemma y_pointsToAbs sz : yp any (pointsToAbs sz).
Proof. apply y_keeps. intros c. unfold pointsToAbs. destruct (abs_outer _ _ _ _ _ _); reflexivity. Qed.
Lemma y_requireSets sz rel : yp any (requireSets sz rel).
Proof. unfold requireSets, hasSetsOrMore. ys. apply y_pointsToAbs. Qed.
Lemma y_moveTo i : yp any (moveTo i). Proof. unfold moveTo. ys. Qed.
Lemma y_addPlaceAt i : yp any (addPlaceAt i). Proof. unfold addPlaceAt. ys. Qed.
Lemma y_arc (c0 : pcur) ps cx cy px py : in_range (pc_path c0) ->
  yp any ('(p, (lx, ly)) <- lift (addArc ps cx cy px py (pc_path c0)) ;; modify (fun c => set_place lx ly (set_path p c))).
Proof.
  intros H0 s Hs. unfold bind, lift. destruct (addArc ps cx cy px py (pc_path c0)) as [[p [lx ly]]|e| |] eqn:Ha; cbn; auto.
  split; [|auto]. eapply g_addArc, Ha. exact H0.
Qed.
Lemma y_get {A} (V : A -> Prop) (k : pcur -> P A) : (forall c, in_range (pc_path c) -> yp V (k c)) -> yp V (c <- gets (fun c => c) ;; k c).
Proof. intros H c Hc. exact (H c Hc c Hc). Qed.
Lemma y_addArcFromA i : yp any (addArcFromA i).
Proof.
  unfold addArcFromA. do 7 (eapply (y_bind _ any); [apply y_pnt|intros ? _]).
  apply y_get. intros c Hc. destruct (findEllipseCenter _ _ _ _ _ _ _ _ _) as [[cx cy] [ra rb]].
  do 3 (eapply (y_bind _ any); [ys|intros ? _]). apply y_arc, Hc.
Qed.
Lemma y_ellipseAt cx cy rx ry : yp any (ellipseAt cx cy rx ry).
Proof.
  unfold ellipseAt. eapply (y_bind _ any); [ys|intros ? _]. eapply (y_bind _ any); [ys|intros c _]. cbv zeta.
  eapply (y_bind _ any); [ys|intros ? _]. eapply (y_bind _ any); [ys|intros ? _].
  apply y_get. intros c1 Hc.
  intros s Hs. unfold bind at 1, lift. destruct (addArc _ _ _ _ _ (pc_path c1)) as [[p [lx ly]]|e| |] eqn:Ha; cbn [fst snd]; try (split; [exact Hs|discriminate]).
  apply g_addArc in Ha; [|exact Hc]. cbn. split; [|auto]. apply (g_stop true), Ha.
Qed.
Lemma y_segZ : yp any segZ. Proof. unfold segZ. ys. Qed.
Lemma y_segM rel l : yp any (segM rel l). Proof. unfold segM. ys; try apply y_requireSets; try apply y_moveTo. Qed.
Lemma y_segL rel l : yp any (segL rel l). Proof. unfold segL. ys; try apply y_requireSets; try apply y_moveTo. Qed.
Lemma y_segV rel l : yp any (segV rel l). Proof. unfold segV, valsToAbs. ys; try apply y_requireSets. Qed.
Lemma y_segH rel l : yp any (segH rel l). Proof. unfold segH, valsToAbs. ys; try apply y_requireSets. Qed.
Lemma y_segQ rel l : yp any (segQ rel l). Proof. unfold segQ. ys; try apply y_requireSets; try apply y_moveTo. Qed.
Lemma y_reflectQ : yp any reflectControlQuad.
Proof. apply y_modify. intros c. destruct (is_key _ _); [|reflexivity]. destruct (reflect _ _ _ _); reflexivity. Qed.
Lemma y_reflectC : yp any reflectControlCube.
Proof. apply y_modify. intros c. destruct (is_key _ _); [|reflexivity]. destruct (reflect _ _ _ _); reflexivity. Qed.
Lemma y_segT k rel l : yp any (segT k rel l). Proof. unfold segT. ys; try apply y_requireSets; try apply y_moveTo; apply y_reflectQ. Qed.
Lemma y_segC rel l : yp any (segC rel l). Proof. unfold segC. ys; try apply y_requireSets; try apply y_moveTo. Qed.
Lemma y_segS k rel l : yp any (segS k rel l). Proof. unfold segS. ys; try apply y_requireSets; try apply y_moveTo; apply y_reflectC. Qed.
Lemma y_segA rel l : yp any (segA rel l). Proof. unfold segA. ys; [apply y_requireSets|apply y_addPlaceAt|apply y_addArcFromA]. Qed.
Lemma y_segUnknown k : yp any (segUnknown k). Proof. unfold segUnknown, println. ys. Qed.
Lemma y_segSwitch k l : yp any (segSwitch k l).
Proof.
  unfold segSwitch. repeat apply y_if; first [apply y_segZ|apply y_segM|apply y_segL|apply y_segV|apply y_segH|apply y_segQ|apply y_segT
   |apply y_segC|apply y_segS|apply y_segA|apply y_segUnknown].
Qed.
Lemma y_addSeg s : yp any (addSeg s).
Proof. unfold addSeg. ys; [apply y_getPoints|apply y_segSwitch]. Qed.
Lemma y_compile_loop v rs : forall li, yp any (compile_loop v rs li).
Proof. induction rs as [|[i n] rs IH]; intros li; cbn [compile_loop]; ys; try apply IH. apply y_addSeg. Qed.
Lemma y_compilePath v : yp any (compilePath v).
Proof.
  unfold compilePath. eapply (y_bind _ any). { intros s _. split; [apply range_nil|auto]. } intros _ _. ys; [apply y_compile_loop|apply y_addSeg].
Qed.

(** ** Elements *)
Lemma y_liftP {A} (V : A -> Prop) (m : M pcur A) : yp V m -> yc V (liftP m).
Proof. intros H c Hc. unfold liftP. specialize (H _ Hc). destruct (m (c_pc c)) as [p o]. exact H. Qed.
Lemma y_kq {A} (m : @C E A) : keeps kpath m -> yc any m. Proof. intros H. apply y_keeps, H. Qed.
Lemma y_attrs {L} (f : L -> attr -> @C E L) l attrs : (forall l a, keeps kpath (f l a)) -> yc any (foldM f l attrs).
Proof. intros H. apply y_kq, (keeps_foldM _ kq_refl kq_trans). exact H. Qed.
Ltac kstep := match goal with
  | |- keeps _ (ret _) => apply (keeps_ret _ kq_refl)
  | |- keeps _ (bind _ _) => apply (keeps_bind _ kq_trans); [|intros ?]
  | |- keeps _ (if _ then _ else _) => apply keeps_if
  | |- keeps _ (cParseUnit _ _) => apply (kp_cParseUnit _ kq_refl)
  | |- keeps _ (let _ := _ in _) => cbv zeta
  | |- keeps _ (match ?x with _ => _ end) => destruct x
  end.
Lemma y_rectF fuel attrs : yc any (rectF fuel attrs).
Proof.
  unfold rectF. eapply (y_bind _ any). { apply y_attrs. intros [[[[[x y] w] h] rx] ry] a. unfold rectAttr. repeat kstep. }
  intros [[[[[x y] w] h] rx] ry] _. apply y_if; [apply y_ret; exact I|]. cbv zeta. eapply (y_bind _ any); [apply y_gets; auto|]. intros [cx cy] _.
  intros c Hc. unfold bind at 1, gets. unfold bind, lift. match goal with |- context [addRoundRect ?f ?a ?b ?c ?d ?e ?g ?h ?i] => destruct (addRoundRect f a b c d e g h i) as [p|e'| |] eqn:Ha end;
    cbn; auto. split; [|auto]. apply g_roundRect in Ha; [exact Ha|exact Hc].
Qed.
Lemma y_circleF attrs : yc any (circleF attrs).
Proof.
  unfold circleF. eapply (y_bind _ any). { apply y_attrs. intros [[[x y] w] h] a. unfold circleAttr. repeat kstep. }
  intros [[[x y] w] h] _. apply y_if; [apply y_ret; exact I|]. eapply (y_bind _ any); [apply y_gets; auto|]. intros [cx cy] _. apply y_liftP, y_ellipseAt.
Qed.
Lemma y_onCPath f : (forall p, in_range p -> in_range (f p)) -> yc any (onCPath f).
Proof. intros H. apply y_liftP, y_onPath, H. Qed.
Lemma y_lineF attrs : yc any (lineF attrs).
Proof.
  unfold lineF. eapply (y_bind _ any). { apply y_attrs. intros [[[x y] w] h] a. unfold lineAttr. repeat kstep. }
  intros [[[x y] w] h] _. eapply y_bind; [apply y_liftP, y_fxp|]. intros a Ha. eapply (y_bind _ any); [apply y_onCPath; auto with rng|]. intros _ _.
  eapply y_bind; [apply y_liftP, y_fxp|]. intros b Hb. apply y_onCPath; auto with rng.
Qed.
Lemma y_polylineF attrs : yc any (polylineF attrs).
Proof.
  unfold polylineF. eapply (y_bind _ any).
  { apply y_attrs. intros u a. unfold polyAttr. apply keeps_if; [|apply (keeps_ret _ kq_refl)].
    apply (keeps_bind _ kq_trans); [apply keeps_attempt, kq_getPoints|]. intros er. apply (keeps_bind _ kq_trans); [apply (keeps_gets _ kq_refl)|]. intros ps.
    apply keeps_if; [apply (keeps_raise _ kq_refl)|]. destruct er; [apply (keeps_raise _ kq_refl)|apply (keeps_ret _ kq_refl)]. }
  intros _ _. eapply (y_bind _ any); [apply y_gets; auto|]. intros ps _. apply y_if; [|apply y_ret; exact I].
  eapply y_bind; [apply y_liftP, y_fxpt|]. intros a Ha. eapply (y_bind _ any); [apply y_onCPath; auto with rng|]. intros _ _.
  apply y_loop. intros i. eapply y_bind; [apply y_liftP, y_fxpt|]. intros b Hb. apply y_onCPath; auto with rng.
Qed.
Lemma y_polygonF attrs : yc any (polygonF attrs).
Proof.
  unfold polygonF. eapply (y_bind _ any); [apply y_attempt, y_polylineF|]. intros er _. eapply (y_bind _ any); [apply y_gets; auto|]. intros ps _.
  eapply (y_bind _ any). { apply y_if; [apply y_onCPath; auto with rng|apply y_ret; exact I]. } intros _ _. destruct er; [apply y_raise|apply y_ret; exact I].
Qed.
Lemma y_pathF attrs : yc any (pathF attrs).
Proof. unfold pathF. apply y_mapM. intros a. apply y_if; [apply y_liftP, y_compilePath|apply y_ret; exact I]. Qed.
Lemma kq_svgF attrs : keeps kpath (svgF (E := E) attrs).
Proof. exact (ProofsWho.draw_kq 0 "svg" svgF attrs eq_refl eq_refl eq_refl). Qed.
Lemma draw_range fuel name df attrs : drawFunc (E := E) fuel name = Some df ->
  keeps (fun c c' => in_range (pc_path (c_pc c)) -> in_range (pc_path (c_pc c'))) (df attrs).
Proof.
  intros H. assert (yc any (df attrs)) as K.
  { unfold drawFunc in H. repeat match type of H with (if ?b then _ else _) = _ => destruct b; [injection H as <-|] end; try discriminate.
    - apply y_kq, kq_svgF. - apply y_ret; exact I. - apply y_lineF. - apply y_kq, kq_stopF. - apply y_rectF. - apply y_circleF. - apply y_circleF.
    - apply y_polylineF. - apply y_polygonF. - apply y_pathF. - apply y_kq. intros c; reflexivity. - apply y_kq. intros c; reflexivity. - apply y_kq. intros c; reflexivity.
    - apply y_kq, kq_linearGradientF. - apply y_kq, kq_radialGradientF.
    - apply y_kq. unfold maskF. apply (keeps_bind _ kq_trans).
      + apply (keeps_foldM _ kq_refl kq_trans). intros l a. apply (kp_maskAttr _ kq_refl kq_trans).
      + intros [[[[i x] y] w] h] c. reflexivity. }
  intros c Hc. apply K, Hc.
Qed.
End Drawing.

(** ** What every stored path has *)
Section Stored.
Context {E : Env}.
Notation cursor := (cursor E).
Context (G : path -> Prop) (St : style E -> Prop) (At : list attr -> Prop).
Definition fits (p : svgPath E) : Prop := G (sp_path p) /\ St (sp_style p).
Definition defs_fit (l : list definition) : Prop := Forall (fun d => At (d_attrs d)) l.
Record fit (c : cursor) : Prop := mkFit {
  f_path : G (pc_path (c_pc c));
  f_stack : Forall St (c_stack c);
  f_paths : Forall fits (sv_paths (c_svg c));
  f_masks : Forall (fun e => Forall fits (mk_paths (snd e))) (sv_masks (c_svg c));
  f_mask : forall m, c_mask c = Some m -> Forall fits (mk_paths m);
  f_defs : Forall (fun e => defs_fit (snd e)) (sv_defs (c_svg c));
  f_cur : defs_fit (c_curDef c) }.
Context (Gnil : G []) (Std : St defaultStyle) (Atn : At [])
  (Hdraw : forall fuel name df attrs, drawFunc (E := E) fuel name = Some df -> keeps (fun c c' => G (pc_path (c_pc c)) -> G (pc_path (c_pc c'))) (df attrs))
  (Hpush : forall attrs st c c' st', At attrs -> St st -> foldM stylePair st (stylePairs (E := E) attrs) c = (c', Ret st') -> St st').
Definition step (c c' : cursor) : Prop := fit c -> fit c'.
Notation ks := (keeps step).
Lemma st_refl c : step c c. Proof. intros H; exact H. Qed.
Lemma st_trans a b c : step a b -> step b c -> step a c. Proof. unfold step. auto. Qed.
(** the rest *)
Definition rest (c c' : cursor) : Prop :=
  c_stack c' = c_stack c /\ sv_paths (c_svg c') = sv_paths (c_svg c) /\ sv_masks (c_svg c') = sv_masks (c_svg c) /\ c_mask c' = c_mask c
  /\ sv_defs (c_svg c') = sv_defs (c_svg c) /\ c_curDef c' = c_curDef c.
Lemma rs_refl c : rest c c. Proof. repeat split. Qed.
Lemma rs_trans a b c : rest a b -> rest b c -> rest a c. Proof. unfold rest. intuition congruence. Qed.
Lemma rs_pc p c : rest c (c_set_pc p c). Proof. repeat split. Qed.
Lemma rs_heap h c : rest c (c_set_svg (sv_set_mheap h (c_svg c)) c). Proof. repeat split. Qed.
Lemma rs_svg v w h c : rest c (c_set_svg (sv_set_viewBox v (sv_set_width w (sv_set_height h (c_svg c)))) c). Proof. repeat split. Qed.
Lemma rs_title b l c : rest c (c_set_svg (sv_set_titles l (c_svg c)) (c_set_inTitle b c)). Proof. repeat split. Qed.
Lemma rs_desc b l c : rest c (c_set_svg (sv_set_descs l (c_svg c)) (c_set_inDesc b c)). Proof. repeat split. Qed.
Lemma rs_inDefs b c : rest c (c_set_inDefs b c). Proof. repeat split. Qed.
Lemma rs_grad p h b c : rest c (c_set_grad p (c_set_gheap h (c_set_inGrad b c))). Proof. repeat split. Qed.
Lemma rs_grads g c : rest c (c_set_svg (sv_set_grads g (c_svg c)) c). Proof. repeat split. Qed.
Lemma fit_of c c' : rest c c' -> (G (pc_path (c_pc c)) -> G (pc_path (c_pc c'))) -> step c c'.
Proof. intros (R1 & R2 & R3 & R4 & R5 & R6) HG [F1 F2 F3 F4 F5 F6 F7]. constructor; rewrite ?R1, ?R2, ?R3, ?R4, ?R5, ?R6; auto. Qed.
Lemma k_same {A} (m : @C E A) : keeps rest m -> keeps kpath m -> ks m.
Proof. intros H1 H2 c. apply fit_of; [apply H1|]. intros H. specialize (H2 c). unfold kpath in H2. rewrite H2. exact H. Qed.
Lemma k_draw fuel name df attrs : drawFunc (E := E) fuel name = Some df -> ks (df attrs).
Proof.
  intros H. destruct (String.eqb name "mask") eqn:Hm.
  - apply String.eqb_eq in Hm. subst name. cbn in H. injection H as <-. unfold maskF. apply (keeps_bind _ st_trans).
    + apply (keeps_foldM _ st_refl st_trans). intros l a. apply (kp_maskAttr _ st_refl st_trans).
    + intros [[[[i x] y] w] h] c [F1 F2 F3 F4 F5 F6 F7]. constructor; cbn; auto. intros m Hm. injection Hm as <-. constructor.
  - intros c. apply fit_of; [|eapply Hdraw, H]. revert c. change (keeps rest (df attrs)). unfold drawFunc in H. rewrite Hm in H.
    repeat match type of H with (if ?b then _ else _) = _ => destruct b; [injection H as <-|] end; try discriminate.
    + apply (kp_svgF _ rs_refl rs_trans rs_pc rs_svg). + apply (keeps_ret _ rs_refl). + apply (kp_lineF _ rs_refl rs_trans rs_pc).
    + apply (kp_stopF _ rs_refl rs_trans rs_grad). + apply (kp_rectF _ rs_refl rs_trans rs_pc). + apply (kp_circleF _ rs_refl rs_trans rs_pc).
    + apply (kp_circleF _ rs_refl rs_trans rs_pc). + apply (kp_polylineF _ rs_refl rs_trans rs_pc). + apply (kp_polygonF _ rs_refl rs_trans rs_pc).
    + apply (kp_pathF _ rs_refl rs_trans rs_pc). + apply (kp_descF _ rs_desc). + apply (kp_defsF _ rs_inDefs). + apply (kp_titleF _ rs_title).
    + apply (kp_linearGradientF _ rs_refl rs_trans rs_pc rs_grad rs_grads). + apply (kp_radialGradientF _ rs_refl rs_trans rs_pc rs_grad rs_grads).
Qed.
Lemma k_handleError s : ks (handleError s).
Proof. apply k_same; [apply (kp_handleError _ rs_refl rs_trans rs_pc)|apply kq_handleError]. Qed.
Lemma k_popStyle : ks popStyle.
Proof.
  intros c. unfold popStyle. destruct (c_stack c) as [|st l] eqn:Hs; [apply st_refl|]. intros [F1 F2 F3 F4 F5 F6 F7]. rewrite Hs in F2.
  inversion F2; subst. constructor; cbn; auto.
Qed.
Lemma k_pushStyle attrs : At attrs -> ks (pushStyle attrs).
Proof.
  intros Ha c Hc. unfold pushStyle, topStyle, bind. destruct (c_stack c) as [|st l] eqn:Hs; [exact Hc|]. pose proof (f_stack _ Hc) as Hst. rewrite Hs in Hst. inversion Hst; subst.
  assert (ks (foldM stylePair st (stylePairs (E := E) attrs))) as K.
  { apply k_same; [apply (kp_foldM _ rs_refl rs_trans); apply (kp_stylePair _ rs_refl rs_trans rs_pc rs_heap)|].
    apply (keeps_foldM _ kq_refl kq_trans). intros l' a. unfold stylePair. destruct (split1 ":" a) as [|k [|v r]]; try apply (keeps_ret _ kq_refl). apply kq_readStyleAttr. }
  specialize (K c Hc). destruct (foldM stylePair st (stylePairs (E := E) attrs) c) as [c1 [st'|e| |]] eqn:Hf; try exact K.
  pose proof (Hpush _ _ _ _ _ Ha H1 Hf) as Hst'. destruct K as [F1 F2 F3 F4 F5 F6 F7]. constructor; cbn; auto.
Qed.
Lemma k_useLoop draw defs : defs_fit defs -> (forall t df attrs, draw t = Some df -> ks (df attrs)) -> ks (useLoop draw defs).
Proof.
  intros Hf Hd. induction Hf as [|d defs Ha Hf IH]; cbn [useLoop]; [apply (keeps_ret _ st_refl)|].
  apply keeps_if. { apply (keeps_bind _ st_trans); [apply k_popStyle|]. intros _. exact IH. }
  apply (keeps_bind _ st_trans); [apply k_pushStyle, Ha|]. intros _. destruct (draw (d_tag d)) as [df|] eqn:Hdr; [|apply k_handleError].
  apply (keeps_bind _ st_trans); [eapply Hd, Hdr|]. intros _. apply (keeps_bind _ st_trans); [|intros _; exact IH].
  apply keeps_if; [apply k_popStyle|apply (keeps_ret _ st_refl)].
Qed.
Lemma k_useF fuel : forall attrs, ks (useF fuel attrs).
Proof.
  induction fuel as [|fuel IH]; intros attrs; cbn [useF]. { intros c. apply st_refl. }
  apply (keeps_bind _ st_trans). { apply (keeps_foldM _ st_refl st_trans). intros l a. apply (kp_useAttr _ st_refl st_trans). }
  intros [[href x] y]. apply (keeps_bind _ st_trans). { apply keeps_modify. intros c. apply fit_of; [apply rs_pc|auto]. } intros _.
  intros c Hc. unfold deferred.
  match goal with |- fit (fst (let (_, _) := ?m c in _)) => assert (ks m) as K end.
  { apply keeps_if; [apply (keeps_raise _ st_refl)|]. apply keeps_if; [apply (keeps_raise _ st_refl)|].
    apply (keeps_bind _ st_trans); [apply (keeps_lift _ st_refl)|]. intros id c1 H1. unfold bind, gets.
    destruct (mget id (sv_defs (c_svg c1))) as [ds|] eqn:Hg; [|exact H1].
    pose proof (f_defs _ H1) as Hds. revert H1. apply k_useLoop.
    - eapply (mget_forall defs_fit); [exact Hds|exact Hg].
    - intros t df a Hdf. destruct (String.eqb t "use"); [injection Hdf as <-; apply IH|]. eapply k_draw, Hdf. }
  specialize (K c Hc). match goal with |- fit (fst (let (_, _) := ?m in _)) => destruct m as [c1 o] end. cbn [fst] in *.
  revert K. apply fit_of; [apply rs_pc|auto].
Qed.
Lemma k_drawFuncs fuel name df attrs : drawFuncs fuel name = Some df -> ks (df attrs).
Proof. unfold drawFuncs. destruct (String.eqb name "use"); intros H; [injection H as <-; apply k_useF|eapply k_draw, H]. Qed.
Lemma k_collect : ks collectPath.
Proof.
  intros c Hc. unfold collectPath, bind, gets. destruct (pc_path (c_pc c)) as [|o p] eqn:Hp; [exact Hc|].
  pose proof Hc as Hc0. destruct Hc as [F1 F2 F3 F4 F5 F6 F7]. rewrite Hp in F1. unfold topStyle, ret, modify, onSvg, onCPath, liftP, onPath.
  destruct (c_inMask c).
  - destruct (c_mask c) as [m|] eqn:Hm.
    + destruct (c_stack c) as [|st l] eqn:Hs; [exact Hc0|]. inversion F2; subst. constructor; cbn; auto; [rewrite Hs; auto|].
      intros m' Hm'. injection Hm' as <-. cbn. apply Forall_app. split; [apply F5; reflexivity|]. constructor; [split; assumption|constructor].
    + constructor; cbn; auto. rewrite Hm. discriminate.
  - destruct (c_stack c) as [|st l] eqn:Hs; [exact Hc0|]. inversion F2; subst. constructor; cbn; auto; [rewrite Hs; auto|].
    apply Forall_app. split; [assumption|]. constructor; [split; assumption|constructor].
Qed.
Lemma k_flush : ks flushDefs.
Proof.
  intros c [F1 F2 F3 F4 F5 F6 F7]. unfold flushDefs, modify. destruct (c_curDef c) as [|d l] eqn:Hd; cbn [fst]; [constructor; rewrite ?Hd; auto|].
  constructor; cbn; auto; [|constructor]. apply (mput_forall defs_fit); assumption.
Qed.
Lemma k_addDef d : At (d_attrs d) -> ks (addDef d).
Proof.
  intros Ha c [F1 F2 F3 F4 F5 F6 F7]. constructor; cbn; auto. apply Forall_app. split; [assumption|]. constructor; [assumption|constructor].
Qed.
Lemma k_start fuel name attrs : At attrs -> ks (readStartElement fuel name attrs).
Proof.
  intros Ha. unfold readStartElement. apply (keeps_bind _ st_trans); [apply (keeps_gets _ st_refl)|]. intros c0. cbv zeta. apply keeps_if.
  - apply (keeps_bind _ st_trans); [apply keeps_if; [apply k_flush|apply (keeps_ret _ st_refl)]|]. intros _. apply k_addDef, Ha.
  - destruct (drawFuncs fuel name) as [df|] eqn:Hdf; [|apply k_handleError].
    apply (keeps_bind _ st_trans); [apply keeps_attempt; eapply k_drawFuncs, Hdf|]. intros er.
    apply (keeps_bind _ st_trans); [apply k_collect|]. intros _. destruct er; [apply (keeps_raise _ st_refl)|apply (keeps_ret _ st_refl)].
Qed.
Lemma k_rest f : (forall c, rest c (f c)) -> (forall c, pc_path (c_pc (f c)) = pc_path (c_pc c)) -> ks (modify f).
Proof. intros H1 H2. apply keeps_modify. intros c. apply fit_of; [apply H1|]. rewrite H2. auto. Qed.
Lemma k_end name : ks (endElement name).
Proof.
  rewrite endElement_rest. apply (keeps_bind _ st_trans); [apply k_popStyle|]. intros _. unfold endRest.
  repeat apply keeps_if; try apply (keeps_ret _ st_refl);
    try (match goal with |- keeps _ (modify _) => apply k_rest; intros; repeat split end).
  - apply (keeps_bind _ st_trans); [apply (keeps_gets _ st_refl)|]. intros b. apply keeps_if; [apply k_addDef, Atn|apply (keeps_ret _ st_refl)].
  - intros c Hc. pose proof Hc as [F1 F2 F3 F4 F5 F6 F7]. cbv [bind gets ret modify onSvg]. destruct (c_mask c) as [m|] eqn:Hm.
    + constructor; cbn; auto; [|discriminate]. apply (mput_forall (fun m => Forall fits (mk_paths m))); [apply F5; reflexivity|assumption].
    + constructor; cbn; auto. rewrite Hm. discriminate.
  - apply (keeps_bind _ st_trans); [apply k_flush|]. intros _. apply k_rest; intros; repeat split.
Qed.
Lemma k_char s : ks (charData s).
Proof.
  apply k_same; [apply (kp_charData _ rs_refl rs_trans rs_title rs_desc)|]. apply (kp_charData _ kq_refl kq_trans); intros; reflexivity.
Qed.
Definition token_fit (t : token) : Prop := match t with TStart _ attrs => At attrs | _ => True end.
Lemma k_step fuel t : token_fit t -> ks (stepToken fuel t).
Proof.
  destruct t as [name attrs|name|s|]; cbn [stepToken token_fit]; intros Ht.
  - apply (keeps_bind _ st_trans); [apply k_pushStyle, Ht|]. intros _. apply k_start, Ht.
  - apply k_end. - apply k_char. - apply (keeps_ret _ st_refl).
Qed.
Lemma fit_tokens fuel toks : Forall token_fit toks -> ks (mapM (stepToken fuel) toks).
Proof.
  induction 1 as [|t toks Ht _ IH]; cbn [mapM]; [apply (keeps_ret _ st_refl)|]. apply (keeps_bind _ st_trans); [apply k_step, Ht|]. intros _. exact IH.
Qed.
Lemma fit_start mode : fit (cursor0 mode).
Proof. constructor; cbn; auto; [discriminate|constructor]. Qed.
Theorem parse_fit fuel mode toks tm s err log p : Forall token_fit toks -> parse fuel mode toks tm = PSvg s err log -> has_path s p -> fits p.
Proof.
  intros Ht H Hp. pose proof (fit_tokens fuel toks Ht (cursor0 mode) (fit_start mode)) as K. unfold parse in H.
  destruct (mapM (stepToken fuel) toks (cursor0 mode)) as [c [a|e| |]]; try discriminate; cbn [fst] in K.
  all: assert (s = c_svg c) as -> by (try (destruct tm; [destruct (seenTag toks); [|discriminate]|]); injection H as <- _ _; reflexivity).
  all: destruct K as [F1 F2 F3 F4 F5 F6 F7]; rewrite Forall_forall in F3; destruct Hp as [Hp|(id & m & Hm & Hp)]; [apply F3, Hp|].
  all: pose proof (mget_forall (fun m => Forall fits (mk_paths m)) id m _ F4 Hm) as Hk; rewrite Forall_forall in Hk; apply Hk, Hp.
Qed.
End Stored.

(** ** C60 *)
Section Parsed.
Context {E : Env}.
Theorem parsed_range fuel mode toks tm (s : svg E) err log p : (forall x, coordinate (f_to_i32 E x)) ->
  parse fuel mode toks tm = PSvg s err log -> has_path s p -> in_range (sp_path p).
Proof.
  intros Hi H Hp. apply (parse_fit in_range (fun _ => True) (fun _ => True)) with (p := p) in H; [apply H|..]; auto.
  - constructor. - intros f n df a Hd. exact (draw_range Hi f n df a Hd). - apply Forall_forall. intros [n a|n|t|] _; exact I.
Qed.
Lemma decl_transform_kept (st : style E) k v c c' st' : k <> "transform"%string -> readStyleAttr st k v c = (c', Ret st') -> st_transform st' = st_transform st.
Proof.
  intros Hk H. apply (readStyleAttr_parts st st' k v c c' Transform H). unfold parts_named.
  destruct (find _ _) as [e|] eqn:Hf; [|intros []]. apply find_some in Hf as [H1 H2]. apply String.eqb_eq in H2. subst k.
  cbn in H1. repeat (destruct H1 as [<-|H1]; [cbn; first [congruence|intuition discriminate]|]). destruct H1.
Qed.
Lemma decls_transform_kept ds : Forall (fun d => fst d <> "transform"%string) ds -> forall (st : style E) c c' st',
  foldM readDecl st ds c = (c', Ret st') -> st_transform st' = st_transform st.
Proof.
  induction 1 as [|d ds Hd _ IH]; intros st c c' st'; cbn [foldM].
  - intros H. injection H as _ <-. reflexivity.
  - intros H. apply bindC in H as (c1 & st1 & H1 & H2). rewrite (IH _ _ _ _ H2). eapply decl_transform_kept, H1. exact Hd.
Qed.
Theorem parsed_untransformed fuel mode toks tm (s : svg E) err log p : Forall plain_token toks ->
  parse fuel mode toks tm = PSvg s err log -> has_path s p -> st_transform (sp_style p) = identity.
Proof.
  intros Ht H Hp. apply (parse_fit (fun _ => True) (fun st => st_transform st = identity) untransformed) with (p := p) in H; [apply H|..]; auto.
  - exists []. split; constructor.
  - intros f n df a _ c _. exact I.
  - intros attrs st c c' st' (ds & H1 & H2) Hst Hf. rewrite (attrs_reads _ _ H1) in Hf. rewrite <- Hst. eapply decls_transform_kept, Hf. exact H2.
Qed.
End Parsed.

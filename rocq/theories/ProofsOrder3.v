(** * ProofsOrder3: documents with reordered attributes give the same drawing *)
From Coq Require Import Lia.
From Verif Require Import ProofsShape ProofsFrame ProofsMode.
From Verif Require Export ProofsOrder2.
Local Open Scope go_scope.

Section Order.
Context {E : Env}.
Notation cursor := (cursor E).
Notation style := (style E).
Notation svg := (svg E).
Notation C := (@C E).

(** ** One element, from one state *)
Definition reo (l l' : list attr) : Prop := l = l' \/ reordered l l'.
Definition ex {A} (m m' : C A) : Prop := forall c t u, quiet c -> m c = (t, Ret u) -> m' c = (t, Ret u).
Lemma ex_refl {A} (m : C A) : ex m m. Proof. intros c t u _ H. exact H. Qed.
Lemma ex_bind {A B} (m m' : C A) (k : A -> C B) : ex m m' -> ex (bind m k) (bind m' k).
Proof. intros Hm c t u Hq H. apply bindC in H as (c1 & a & H1 & H2). unfold bind. rewrite (Hm _ _ _ Hq H1). exact H2. Qed.
Lemma ex_pre {A} f (m m' : C A) : (forall c, quiet c -> quiet (f c)) -> ex m m' -> ex (modify f ;; m) (modify f ;; m').
Proof. intros Hf Hm c t u Hq H. apply (Hm _ _ _ (Hf _ Hq) H). Qed.
Lemma fold_reo {L} (f : L -> attr -> C L) l l' : (forall a b, apart a b -> swaps f always a b) -> reo l l' -> forall x, ex (foldM f x l) (foldM f x l').
Proof.
  intros Hf [<-|(Hp & Hr & Ha)] x c t u Hq H; [exact H|]. refine (fold_perm f always (fun _ _ _ _ _ _ _ => I) l l' Hp _ x c t u I H).
  apply (pairs_of readable apart _ l Hr Ha). intros a b _ _ Hab. split; apply Hf; [exact Hab|apply apart_sym, Hab].
Qed.
Lemma ex_pushStyle l l' : reo l l' -> ex (pushStyle (E := E) l) (pushStyle l').
Proof.
  intros [<-|(Hp & Hr & Ha)]; [apply ex_refl|]. unfold pushStyle. intros c t u Hq H.
  apply bindC in H as (c1 & top & H1 & H). apply bindC in H as (c2 & st & H2 & H3). unfold bind. rewrite H1.
  assert (c1 = c) as -> by (unfold topStyle in H1; destruct (c_stack c); [discriminate|injection H1 as <- _; reflexivity]).
  rewrite pairs_attrs in H2. rewrite pairs_attrs.
  rewrite (fold_perm styleAttr1 quiet (fun x a s t y => attr1_quiet x a s t y) l l' Hp) with (t := c2) (z := st); auto.
  apply (pairs_of readable apart _ l Hr Ha). intros a b Ra Rb Hab. split; apply attr_swaps; auto. apply apart_sym, Hab.
Qed.
Lemma fold_pure {L} (g : L -> attr -> L) l : forall x (c : cursor), foldM (fun x a => ret (g x a)) x l c = (c, Ret (fold_left g l x)).
Proof. induction l as [|a l IH]; intros x c; [reflexivity|]. cbn [foldM fold_left]. unfold bind, ret at 1. apply IH. Qed.
Lemma last_named n l l' x : reo l l' -> fold_left (fun id a => if is a n then a_val a else id) l x = fold_left (fun id a => if is a n then a_val a else id) l' x.
Proof.
  intros H. pose proof (fold_reo (fun x a => ret (if is a n then a_val a else x)) l l') as K.
  specialize (K ltac:(intros a b Hab y s t z u w _ H1 H2; injection H1 as <- <-; injection H2 as <- <-; exists s, (if is b n then a_val b else y); split; [reflexivity|];
    destruct (is a n) eqn:Na, (is b n) eqn:Nb; try reflexivity; destruct (apart_names _ _ _ Hab Na Nb)) H x (cursor0 StrictErrorMode)).
  specialize (K _ _ ltac:(discriminate) (fold_pure _ l x _)). rewrite fold_pure in K. injection K as K. exact (eq_sym K).
Qed.
Lemma find_last l : ForallOrdPairs apart l -> findStyle l = fold_left (fun id a => if is a "style" then a_val a else id) l EmptyString.
Proof.
  intros H.
  induction H as [|a l Ha Hl IH]; [reflexivity|]. cbn [findStyle fold_left]. unfold is at 2. destruct (String.eqb (a_name a) "style") eqn:Na.
  - assert (Hn : forall b, List.In b l -> is b "style" = false).
    { intros b Hb. rewrite Forall_forall in Ha. destruct (is b "style") eqn:Nb; [|reflexivity]. destruct (apart_names _ _ "style" (Ha b Hb) Na Nb). }
    clear -Hn. symmetry. induction l as [|b l IH]; [reflexivity|]. cbn [fold_left]. rewrite (Hn b (or_introl eq_refl)). apply IH. intros b' Hb. apply Hn. right. exact Hb.
  - exact IH.
Qed.
Lemma find_reo l l' : reo l l' -> findStyle l = findStyle l'.
Proof.
  intros [<-|(Hp & Hr & Ha)]; [reflexivity|].
  assert (Ha' : ForallOrdPairs apart l').
  { clear Hr. induction Hp as [|a l l' Hp IH|a b l|l l1 l2 Hp1 IH1 Hp2 IH2]; auto.
    - inversion Ha as [|? ? H1 H2]; subst. constructor; [|auto]. exact (Permutation_Forall Hp H1).
    - inversion Ha as [|? ? H1 H2]; subst. inversion H2 as [|? ? H3 H4]; subst. inversion H1 as [|? ? H5 H7]; subst.
      constructor; [constructor; [apply apart_sym, H5|exact H3]|]. constructor; auto. }
  rewrite (find_last l Ha), (find_last l' Ha'). apply last_named. right. repeat split; assumption.
Qed.
Lemma q_svg f (c : cursor) : quiet c -> quiet (c_set_svg (f (c_svg c)) c). Proof. exact (fun H => H). Qed.
Lemma ex_svgF l l' : reo l l' -> ex (svgF (E := E) l) (svgF l').
Proof. intros H. unfold svgF, onSvg at 1 3. apply ex_pre; [exact (fun c Hc => Hc)|]. apply ex_bind, (fold_reo _ _ _ svg_swaps H). Qed.
Lemma ex_rectF n l l' : reo l l' -> ex (rectF (E := E) n l) (rectF n l'). Proof. intros H. apply ex_bind, (fold_reo _ _ _ rect_swaps H). Qed.
Lemma ex_maskF l l' : reo l l' -> ex (maskF (E := E) l) (maskF l'). Proof. intros H. apply ex_bind, (fold_reo _ _ _ mask_swaps H). Qed.
Lemma ex_circleF l l' : reo l l' -> ex (circleF (E := E) l) (circleF l'). Proof. intros H. apply ex_bind, (fold_reo _ _ _ circle_swaps H). Qed.
Lemma ex_lineF l l' : reo l l' -> ex (lineF (E := E) l) (lineF l'). Proof. intros H. apply ex_bind, (fold_reo _ _ _ line_swaps H). Qed.
Lemma ex_polylineF l l' : reo l l' -> ex (polylineF (E := E) l) (polylineF l'). Proof. intros H. apply ex_bind, (fold_reo _ _ _ poly_swaps H). Qed.
Lemma ex_attempt {A} (m m' : C unit) (k : option goerr -> C A) : ex m m' -> (forall e c t u, k (Some e) c = (t, Ret u) -> False) -> ex (bind (attempt m) k) (bind (attempt m') k).
Proof.
  intros Hm Hk c t u Hq H. apply bindC in H as (c1 & o & H1 & H2). unfold attempt in H1. destruct (m c) as [c2 [[]|e| |]] eqn:Hc; try discriminate; injection H1 as <- <-.
  - unfold bind, attempt. rewrite (Hm _ _ _ Hq Hc). exact H2.
  - destruct (Hk _ _ _ _ H2).
Qed.
Lemma ex_polygonF l l' : reo l l' -> ex (polygonF (E := E) l) (polygonF l').
Proof.
  intros H. unfold polygonF. apply ex_attempt; [apply ex_polylineF, H|]. intros e c t u K. apply bindC in K as (c1 & ps & _ & K). apply bindC in K as (c2 & x & _ & K). discriminate.
Qed.
Lemma ex_pathF l l' : reo l l' -> ex (pathF (E := E) l) (pathF l').
Proof. intros H c t u Hq K. rewrite pathF_fold in *. exact (fold_reo _ _ _ path_swaps H tt c t u Hq K). Qed.
Lemma ex_linearGradientF l l' : reo l l' -> ex (linearGradientF (E := E) l) (linearGradientF l').
Proof. intros H. unfold linearGradientF, newGrad. apply ex_pre; [exact (fun c Hc => Hc)|]. apply ex_pre; [exact (fun c Hc => Hc)|]. apply ex_bind, (fold_reo _ _ _ lin_swaps H). Qed.
Lemma ex_radialGradientF l l' : reo l l' -> ex (radialGradientF (E := E) l) (radialGradientF l').
Proof. intros H. unfold radialGradientF, newGrad. apply ex_pre; [exact (fun c Hc => Hc)|]. apply ex_pre; [exact (fun c Hc => Hc)|]. apply ex_bind, (fold_reo _ _ _ rad_swaps H). Qed.
Lemma ex_stopF l l' : reo l l' -> ex (stopF (E := E) l) (stopF l').
Proof.
  intros H. unfold stopF. intros c t u Hq K. unfold bind, gets in *. destruct (c_inGrad c); [|exact K]. revert K.
  rewrite !append_kvs, (find_reo _ _ H), !foldM_app. unfold bind.
  destruct (foldM stopAttr (mkStop None (fnum E 0) (fnum E 1)) l c) as [c1 [s|e| |]] eqn:Hf; try discriminate.
  rewrite (fold_reo _ _ _ stop_swaps H _ c c1 s Hq Hf). auto.
Qed.
Lemma ex_drawFunc fuel name df : drawFunc (E := E) fuel name = Some df -> forall l l', reo l l' -> ex (df l) (df l').
Proof.
  unfold drawFunc. intros H l l' Hl.
  repeat match type of H with (if ?b then _ else _) = _ => destruct b; [injection H as <-|] end; try discriminate;
    auto using ex_svgF, ex_lineF, ex_stopF, ex_rectF, ex_circleF, ex_polylineF, ex_polygonF, ex_pathF, ex_linearGradientF, ex_radialGradientF, ex_maskF; apply ex_refl.
Qed.

(** ** States that differ in the attributes of the saved definitions *)
Definition Qdef (d1 d2 : definition) : Prop := d_id d1 = d_id d2 /\ d_tag d1 = d_tag d2 /\ reo (d_attrs d1) (d_attrs d2).
Definition Qdefs (p1 p2 : string * list definition) : Prop := fst p1 = fst p2 /\ Forall2 Qdef (snd p1) (snd p2).
Inductive Qsvg : svg -> svg -> Prop :=
| qsvg vb ti de ps tr ms w h gr d1 d2 hp : Forall2 Qdefs d1 d2 -> Qsvg (mkSvg vb ti de ps tr ms w h gr d1 hp) (mkSvg vb ti de ps tr ms w h gr d2 hp).
Inductive Qc : cursor -> cursor -> Prop :=
| qc pc s1 s2 t g gh b1 b2 b3 b4 b5 d1 d2 m : Qsvg s1 s2 -> Forall2 Qdef d1 d2 -> pc_mode pc <> WarnErrorMode ->
    Qc (mkCur pc s1 t g gh b1 b2 b3 b4 b5 d1 m) (mkCur pc s2 t g gh b1 b2 b3 b4 b5 d2 m).
Notation self m := (relV Qc eq m m).
Ltac qcase := intros c1 c2 [pc s1 s2 t g gh b1 b2 b3 b4 b5 d1 d2 m H1 H2 H3].
Ltac qall := intros c1 c2 [pc s1 s2 t g gh b1 b2 b3 b4 b5 d1 d2 m [vb ti de ps tr ms w h gr e1 e2 hp P1] H2 H3].
Lemma qc_quiet c1 c2 : Qc c1 c2 -> quiet c1. Proof. intros []. assumption. Qed.
Lemma q_liftP {A} (m : M (pcur E) A) : keeps frame m -> self (liftP m).
Proof.
  intros Hm. intros c1 c2 [pc s1 s2 t g gh b1 b2 b3 b4 b5 d1 d2 m' H1 H2 H3]. unfold liftP. cbn. specialize (Hm pc).
  destruct (m pc) as [pc' [a|e| |]]; cbn in Hm; destruct Hm as (_ & _ & Hm); repeat split; try assumption; rewrite Hm; exact H3.
Qed.
Lemma q_onSvg f : (forall s1 s2, Qsvg s1 s2 -> Qsvg (f s1) (f s2)) -> self (onSvg f).
Proof. intros Hf. apply rv_modify. qcase. cbn. constructor; auto. Qed.
Lemma q_topStyle : self topStyle. Proof. qcase. unfold topStyle. cbn. destruct t; repeat split; assumption. Qed.
Lemma q_popStyle : self popStyle. Proof. qcase. unfold popStyle. cbn. destruct t; repeat split; assumption. Qed.
Lemma q_vb c1 c2 : Qc c1 c2 -> sv_viewBox (c_svg c1) = sv_viewBox (c_svg c2). Proof. intros [? ? ? ? ? ? ? ? ? ? ? ? ? ? [] ? ?]. reflexivity. Qed.
Lemma q_cParseUnit s p : self (cParseUnit s p).
Proof. intros c1 c2 H. unfold cParseUnit. rewrite (q_vb _ _ H). destruct (resolveUnit _ s p); auto. Qed.
Lemma q_handleError msg : self (handleError msg).
Proof.
  qcase. unfold handleError, bind, gets. cbn. destruct (pc_mode pc) eqn:Hm; [|contradiction|]; cbn; repeat split; try assumption; rewrite Hm; discriminate.
Qed.
Lemma q_points : self (gets (fun c : cursor => pc_points (c_pc c))). Proof. apply rv_gets. qcase. reflexivity. Qed.
Lemma fr_onPath f : keeps frame (onPath (E := E) f). Proof. intros c. split; [reflexivity|split; reflexivity]. Qed.
Ltac step1 :=
  match goal with
  | |- forall _, relV _ _ _ _ => intros ?
  | |- relV _ _ (ret _) _ => apply rv_ret; reflexivity
  | |- relV _ _ (raise _) _ => apply rv_raise
  | |- relV _ _ (lift _) _ => apply rv_lift
  | |- relV _ _ nofuel _ => apply rv_nofuel
  | |- relV _ _ (if _ then _ else _) _ => apply rv_if
  | |- relV _ _ (loop _ _ _ _ _) _ => apply rv_loop
  | |- relV _ _ (foldM _ _ _) _ => apply rv_foldM; intros
  | |- relV _ _ (mapM _ _) _ => apply rv_mapM; intros
  | |- relV _ _ (attempt _) _ => apply rv_attempt
  | |- relV _ _ (liftP _) _ => apply q_liftP; first [apply fr_getPoints|apply fr_compilePath|apply fr_fxp|apply fr_fxpt|apply fr_ellipseAt|apply fr_onPath]
  | |- relV _ _ (cGetPoints _) _ => apply q_liftP, fr_getPoints
  | |- relV _ _ (onCPath _) _ => apply q_liftP, fr_onPath
  | |- relV _ _ cPoints _ => apply q_points
  | |- relV _ _ (gets (fun c => pc_points (c_pc c))) _ => apply q_points
  | |- relV _ _ (cParseUnit _ _) _ => apply q_cParseUnit
  | |- relV _ _ (handleError _) _ => apply q_handleError
  | |- relV _ _ topStyle _ => apply q_topStyle
  | |- relV _ _ popStyle _ => apply q_popStyle
  | |- relV _ _ (bind _ _) _ => apply rv_bindE
  | |- relV _ _ (match ?x with _ => _ end) _ => destruct x
  | |- relV _ _ (let _ := _ in _) _ => cbv zeta
  end.
Lemma q_readGradURL v d : self (readGradURL v d).
Proof.
  unfold readGradURL. apply rv_if; [|step1]. apply rv_bindE; [apply rv_lift|]. intros s. cbv zeta.
  apply rv_if; [|step1]. apply rv_bindE; [apply rv_lift|]. intros id. apply rv_get. qall. cbn [c_svg sv_grads c_gheap].
  destruct (mget id gr); repeat step1.
Qed.
Lemma q_parseDashes l : self (parseDashes l). Proof. induction l; cbn [parseDashes]; repeat step1. exact IHl. Qed.
Lemma q_transformStep m t : self (transformStep m t).
Proof. unfold transformStep. repeat step1. Qed.
Lemma q_parseTransform v : self (parseTransform v).
Proof. unfold parseTransform. repeat step1. apply q_transformStep. Qed.
Lemma q_appendStr x id : self (appendStr x id).
Proof. qall. unfold appendStr. cbn [c_svg sv_mheap]. destruct (sl_len x <? sl_cap x); (split; [reflexivity|]); constructor; auto; constructor; auto. Qed.
Lemma q_readStyleAttr st k v : self (readStyleAttr st k v).
Proof. unfold readStyleAttr. repeat (step1 || apply q_readGradURL || apply q_parseDashes || apply q_parseTransform || apply q_appendStr). Qed.
Lemma q_pushStyle l : self (pushStyle l).
Proof.
  unfold pushStyle. repeat step1; [unfold stylePair; repeat step1; apply q_readStyleAttr|]. apply rv_modify. qcase. constructor; auto.
Qed.
Ltac svg1 := apply q_onSvg; intros ? ? []; constructor; auto.
Lemma q_onGrad f : self (onGrad f).
Proof. qcase. unfold onGrad. cbn. destruct g as [p|]; [|constructor; auto]. destruct (nth_error gh p); [|constructor; auto]. split; [reflexivity|]. constructor; auto. Qed.
Lemma q_registerGrad id : self (registerGrad id).
Proof. qall. unfold registerGrad. cbn. destruct g as [p|]; repeat split; assumption. Qed.
Lemma q_theGrad : self theGrad.
Proof. qcase. unfold theGrad. cbn. destruct g as [p|]; [|constructor; auto]. destruct (idx gh p); repeat split; auto. Qed.
Lemma q_newGrad : self newGrad.
Proof. apply rv_modify. intros c1 c2 Hc. pose proof (q_vb _ _ Hc) as Hv. rewrite Hv. destruct Hc. cbn. constructor; auto. Qed.
Lemma q_curXY : self curXY. Proof. apply rv_gets. qcase. reflexivity. Qed.
Lemma q_path : self (gets (fun c : cursor => pc_path (c_pc c))). Proof. apply rv_gets. qcase. reflexivity. Qed.
Lemma q_readGradAttr a : self (readGradAttr a).
Proof. unfold readGradAttr. repeat (step1 || apply q_parseTransform || apply q_onGrad). Qed.
Ltac step2 := first [step1|apply q_onGrad|apply q_registerGrad|apply q_theGrad|apply q_newGrad|apply q_curXY|apply q_path|apply q_readGradAttr
  |svg1|apply rv_modify; qcase; constructor; auto; fail].
Lemma q_drawFunc fuel name df : drawFunc (E := E) fuel name = Some df -> forall l, self (df l).
Proof.
  unfold drawFunc. intros H l.
  repeat match type of H with (if ?b then _ else _) = _ => destruct b; [injection H as <-|] end; try discriminate.
  - unfold svgF, svgAttr. repeat step2.
  - unfold gF. repeat step2.
  - unfold lineF, lineAttr. repeat step2.
  - unfold stopF, stopAttr. apply rv_bindE; [apply rv_gets; qcase; reflexivity|]. repeat step2.
  - unfold rectF, rectAttr. repeat step2.
  - unfold circleF, circleAttr. repeat step2.
  - unfold circleF, circleAttr. repeat step2.
  - unfold polylineF, polyAttr. repeat step2.
  - unfold polygonF, polylineF, polyAttr. repeat step2.
  - unfold pathF. repeat step2.
  - unfold descF. repeat step2.
  - unfold defsF. repeat step2.
  - unfold titleF. repeat step2.
  - unfold linearGradientF, linAttr. repeat step2.
  - unfold radialGradientF, radAttr. repeat step2.
  - unfold maskF, maskAttr. repeat step2.
Qed.

(** ** Runs that succeed *)
Definition relS {A} (m1 m2 : C A) : Prop := forall s1 s2, Qc s1 s2 -> forall t1 a, m1 s1 = (t1, Ret a) -> exists t2, m2 s2 = (t2, Ret a) /\ Qc t1 t2.
Lemma rs_self {A} (m1 m2 : C A) : relV Qc eq m1 m2 -> relS m1 m2.
Proof.
  intros H s1 s2 Hs t1 a H1. specialize (H s1 s2 Hs). rewrite H1 in H. destruct (m2 s2) as [t2 [b|e| |]]; try contradiction. destruct H as [<- H]. eauto.
Qed.
Lemma rs_bind {A B} (m1 m2 : C A) (k1 k2 : A -> C B) : relS m1 m2 -> (forall a, relS (k1 a) (k2 a)) -> relS (bind m1 k1) (bind m2 k2).
Proof.
  intros Hm Hk s1 s2 Hs t1 b H. apply bindC in H as (c1 & a & H1 & H2). destruct (Hm _ _ Hs _ _ H1) as (c2 & H3 & Hc). unfold bind. rewrite H3. exact (Hk a _ _ Hc _ _ H2).
Qed.
Lemma rs_ex {A} (m m' : C A) : ex m m' -> self m' -> relS m m'.
Proof. intros He Hs s1 s2 Hq t1 a H. exact (rs_self _ _ Hs s1 s2 Hq t1 a (He _ _ _ (qc_quiet _ _ Hq) H)). Qed.
Lemma rs_if {A} (b : bool) (m1 m2 n1 n2 : C A) : relS m1 m2 -> relS n1 n2 -> relS (if b then m1 else n1) (if b then m2 else n2). Proof. destruct b; auto. Qed.
Lemma rs_pushStyle l l' : reo l l' -> relS (pushStyle l) (pushStyle l'). Proof. intros H. apply rs_ex; [apply ex_pushStyle, H|apply q_pushStyle]. Qed.
Lemma rs_useLoop draw ds ds' : (forall t df, draw t = Some df -> forall l l', reo l l' -> relS (df l) (df l')) ->
  Forall2 Qdef ds ds' -> relS (useLoop draw ds) (useLoop draw ds').
Proof.
  intros Hd. induction 1 as [|d d' ds ds' (H1 & H2 & H3) _ IH]; cbn [useLoop]; [apply rs_self; step1|]. rewrite <- H2.
  apply rs_if. { apply rs_bind; [apply rs_self; step1|]. intros _. exact IH. }
  apply rs_bind; [apply rs_pushStyle, H3|]. intros _. destruct (draw (d_tag d)) as [df|] eqn:Hdr; [|apply rs_self; step1].
  apply rs_bind; [eapply Hd; eassumption|]. intros _. apply rs_bind; [|intros _; exact IH]. apply rs_self. repeat step1.
Qed.
Lemma mget_qdefs id (m m' : smap (list definition)) : Forall2 Qdefs m m' ->
  match mget id m, mget id m' with Some a, Some b => Forall2 Qdef a b | None, None => True | _, _ => False end.
Proof.
  induction 1 as [|[k x] [k' x'] m m' [H1 H2] _ IH]; cbn; [exact I|]. cbn in H1, H2. subst k'. destruct (String.eqb id k); [exact H2|exact IH].
Qed.
Lemma rs_deferred {A} f (m1 m2 : C A) : relS m1 m2 -> (forall s t, Qc s t -> Qc (f s) (f t)) -> relS (deferred f m1) (deferred f m2).
Proof.
  intros Hm Hf s1 s2 Hs t1 a H. unfold deferred in *. destruct (m1 s1) as [c1 [b|e| |]] eqn:H1; try discriminate. injection H as <- <-.
  destruct (Hm _ _ Hs _ _ H1) as (c2 & -> & Hc). eauto.
Qed.
Lemma rs_useF fuel : forall l l', reo l l' -> relS (useF fuel l) (useF fuel l').
Proof.
  induction fuel as [|fuel IH]; intros l l' Hl; cbn [useF]; [apply rs_self, rv_nofuel|]. apply rs_bind.
  - apply rs_ex; [apply (fold_reo _ _ _ use_swaps Hl)|]. unfold useAttr. repeat step1.
  - intros [[href x] y]. apply rs_bind; [apply rs_self, rv_modify; qcase; constructor; auto|]. intros _.
    apply rs_deferred; [|qcase; constructor; auto].
    repeat (apply rs_if; [apply rs_self, rv_raise|]). apply rs_bind; [apply rs_self, rv_lift|]. intros id.
    intros c1 c2 Hc t1 a. unfold bind, gets. pose proof Hc as Hm. destruct Hm as [pc s1 s2 t g gh b1 b2 b3 b4 b5 d1 d2 m [vb ti de ps tr ms w h gr e1 e2 hp P1] H2 H3].
    cbn [c_svg sv_defs]. pose proof (mget_qdefs id _ _ P1) as K.
    destruct (mget id e1) as [x1|], (mget id e2) as [x2|]; try contradiction; [|discriminate].
    refine (rs_useLoop _ _ _ _ K _ _ Hc t1 a). intros tg df Hdf l1 l2 Hl12.
    destruct (String.eqb tg "use"); [injection Hdf as <-; apply IH, Hl12|]. apply rs_ex; [exact (ex_drawFunc _ _ _ Hdf _ _ Hl12)|exact (q_drawFunc _ _ _ Hdf _)].
Qed.
Lemma rs_drawFuncs fuel name df : drawFuncs (E := E) fuel name = Some df -> forall l l', reo l l' -> relS (df l) (df l').
Proof.
  unfold drawFuncs. destruct (String.eqb name "use"); intros H l l' Hl; [injection H as <-; apply rs_useF, Hl|].
  apply rs_ex; [exact (ex_drawFunc _ _ _ H _ _ Hl)|exact (q_drawFunc _ _ _ H _)].
Qed.
Lemma q_flushDefs : self flushDefs.
Proof.
  apply rv_modify. qall. cbn. assert (H2' := H2). destruct H2 as [|d d' l l' (K1 & K2 & K3) K4]; [constructor; auto; constructor; auto|].
  constructor; auto. constructor; auto. rewrite K1. cbn.
  unfold mput. constructor; [split; [reflexivity|exact H2']|]. apply filter_keys; [intros a b [H _]; exact H|exact P1].
Qed.
Lemma q_collectPath : self collectPath.
Proof.
  unfold collectPath. apply rv_get. qcase. cbn [c_pc c_inMask c_mask]. destruct (pc_path pc) as [|o q]; [step1|]. apply rv_bindE; [|repeat step1]. destruct b5.
  - destruct m as [m|]; repeat step1. apply rv_modify. intros ? ? []. constructor; auto.
  - repeat step1. svg1.
Qed.
Lemma rs_attempt {A} (m1 m2 : C unit) (k : option goerr -> C A) : relS m1 m2 -> relS (k None) (k None) -> (forall e c t u, k (Some e) c = (t, Ret u) -> False) ->
  relS (bind (attempt m1) k) (bind (attempt m2) k).
Proof.
  intros Hm Hk Hn s1 s2 Hs t1 a H. apply bindC in H as (c1 & o & H1 & H2). unfold attempt in H1. destruct (m1 s1) as [c2 [[]|e| |]] eqn:Hc; try discriminate; injection H1 as <- <-.
  - destruct (Hm _ _ Hs _ _ Hc) as (c3 & H3 & Hq). destruct (Hk _ _ Hq _ _ H2) as (c4 & H4 & Hq'). exists c4. unfold bind, attempt. rewrite H3. auto.
  - destruct (Hn _ _ _ _ H2).
Qed.
Lemma rs_start fuel name l l' : reo l l' -> relS (readStartElement fuel name l) (readStartElement fuel name l').
Proof.
  intros Hl. unfold readStartElement. intros c1 c2 Hc t1 a. unfold bind at 1, gets at 1. unfold bind at 4, gets at 1.
  assert (Hb : c_inGrad c2 = c_inGrad c1 /\ c_inDefs c2 = c_inDefs c1) by (destruct Hc; auto). destruct Hb as [-> ->]. cbv zeta.
  match goal with |- ?m1 c1 = _ -> exists t2, ?m2 c2 = _ /\ _ => cut (relS m1 m2); [intros K; exact (K c1 c2 Hc t1 a)|] end.
  apply rs_if.
  - replace (attrID l) with (attrID l') by (symmetry; apply (last_named "id" l l' EmptyString Hl)).
    apply rs_bind; [apply rs_self, rv_if; [apply q_flushDefs|step1]|]. intros _. apply rs_self, rv_modify. intros ? ? []. constructor; auto.
    apply Forall2_app; [assumption|]. constructor; [repeat split; exact Hl|constructor].
  - destruct (drawFuncs fuel name) as [df|] eqn:Hdf; [|apply rs_self; step1]. apply rs_attempt; [exact (rs_drawFuncs _ _ _ Hdf _ _ Hl)| |].
    + apply rs_self. apply rv_bindE; [apply q_collectPath|]. repeat step1.
    + intros e c t u H. apply bindC in H as (c3 & x & _ & H). discriminate.
Qed.
Lemma q_end name : self (endElement name).
Proof.
  unfold endElement. apply rv_bindE; [step1|]. intros _.
  apply rv_if. { apply rv_bindE; [apply rv_gets; intros ? ? []; reflexivity|]. intros []; [|step1]. apply rv_modify. intros ? ? []. constructor; auto.
    apply Forall2_app; [assumption|]. constructor; [repeat split; left; reflexivity|constructor]. }
  apply rv_if.
  { apply rv_bindE; [apply rv_gets; intros ? ? []; reflexivity|]. intros o. apply rv_bindE; [|intros _; apply rv_modify; intros ? ? []; constructor; auto].
    destruct o as [m|]; [|step1]. apply rv_bindE; [svg1|]. intros _. apply rv_modify. intros ? ? []. constructor; auto. }
  apply rv_if; [apply rv_modify; intros ? ? []; constructor; auto|]. apply rv_if; [apply rv_modify; intros ? ? []; constructor; auto|].
  apply rv_if. { apply rv_bindE; [apply q_flushDefs|]. intros _. apply rv_modify; intros ? ? []; constructor; auto. }
  apply rv_if; [apply rv_modify; intros ? ? []; constructor; auto|step1].
Qed.
Lemma q_chars s : self (charData s).
Proof.
  unfold charData. apply rv_get. qall. cbn [c_inTitle c_inDesc c_svg sv_titles sv_descs].
  apply rv_bindE; [|intros _]; (apply rv_if; [|step1]); (apply rv_bindE; [apply rv_lift|]; intros x; svg1).
Qed.
Lemma rs_token fuel t t' : reordered_token t t' -> relS (stepToken fuel t) (stepToken fuel t').
Proof.
  intros [name l l' Hl|u]; cbn [stepToken].
  - apply rs_bind; [apply rs_pushStyle; right; exact Hl|]. intros _. apply rs_start. right. exact Hl.
  - destruct u as [name l|name|s|]; cbn [stepToken]; [|apply rs_self, q_end|apply rs_self, q_chars|apply rs_self; step1].
    apply rs_bind; [apply rs_pushStyle; left; reflexivity|]. intros _. apply rs_start. left. reflexivity.
Qed.
Lemma rs_tokens fuel toks toks' : Forall2 reordered_token toks toks' -> relS (mapM (stepToken fuel) toks) (mapM (stepToken fuel) toks').
Proof. induction 1; cbn [mapM]; [apply rs_self; step1|]. apply rs_bind; [apply rs_token; assumption|]. intros _. assumption. Qed.
Lemma seen_reo toks toks' : Forall2 reordered_token toks toks' -> seenTag toks = seenTag toks'.
Proof. induction 1 as [|t t' l l' H _ IH]; [reflexivity|]. unfold seenTag in *. cbn [existsb]. rewrite IH. destruct H; reflexivity. Qed.
Lemma quiet_order fuel mode toks toks' (s : svg) log : Forall2 reordered_token toks toks' -> mode <> WarnErrorMode ->
  parse fuel mode toks TermEOF = PSvg s None log -> exists s', parse fuel mode toks' TermEOF = PSvg s' None log /\ same_svg s s'.
Proof.
  intros Ht Hm H. unfold parse in *. rewrite <- (seen_reo _ _ Ht).
  destruct (mapM (stepToken fuel) toks (cursor0 mode)) as [c1 [a|e| |]] eqn:Hr; try discriminate.
  destruct (rs_tokens fuel _ _ Ht (cursor0 mode) (cursor0 mode)) with (t1 := c1) (a := a) as (c2 & H2 & Hc).
  - constructor; [constructor; constructor|constructor|exact Hm].
  - exact Hr.
  - rewrite H2. destruct (seenTag toks); [|discriminate]. injection H as <- <-. destruct Hc as [pc s1 s2 t g gh b1 b2 b3 b4 b5 d1 d2 m [vb ti de ps tr ms w h gr e1 e2 hp P1] H3 H4].
    eexists. split; [reflexivity|]. repeat split.
Qed.
Theorem attribute_order fuel mode toks toks' (s : svg) log : Forall2 reordered_token toks toks' ->
  parse fuel mode toks TermEOF = PSvg s None log -> exists s' log', parse fuel mode toks' TermEOF = PSvg s' None log' /\ same_svg s s' /\ (mode <> WarnErrorMode -> log' = log).
Proof.
  intros Ht H. destruct mode.
  - destruct (quiet_order fuel IgnoreErrorMode toks toks' s log Ht ltac:(discriminate) H) as (s' & K1 & K2). eauto.
  - pose proof (lenient_same (E := E) fuel WarnErrorMode IgnoreErrorMode toks TermEOF ltac:(discriminate) ltac:(discriminate)) as L1. rewrite H in L1.
    destruct (parse fuel IgnoreErrorMode toks TermEOF) as [|s1 e1 log1| |] eqn:H1; try discriminate. cbn in L1. injection L1 as <- <-.
    destruct (quiet_order fuel IgnoreErrorMode toks toks' s log1 Ht ltac:(discriminate) H1) as (s' & K1 & K2).
    pose proof (lenient_same (E := E) fuel WarnErrorMode IgnoreErrorMode toks' TermEOF ltac:(discriminate) ltac:(discriminate)) as L2. rewrite K1 in L2.
    destruct (parse fuel WarnErrorMode toks' TermEOF) as [|s2 e2 log2| |]; try discriminate. cbn in L2. injection L2 as -> ->. exists s', log2. split; [reflexivity|]. split; [exact K2|]. intros Hm. contradiction.
  - destruct (quiet_order fuel StrictErrorMode toks toks' s log Ht ltac:(discriminate) H) as (s' & K1 & K2). eauto.
Qed.
End Order.

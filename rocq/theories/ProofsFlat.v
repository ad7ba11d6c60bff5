(** * ProofsFlat: groups whose attributes are written on their children instead *)
From Coq Require Import Lia.
From Verif Require Import ProofsShape ProofsFrame ProofsMode ProofsKeep ProofsFlags.
From Verif Require Export SpecFlat ProofsErase ProofsOrder3.
Local Open Scope go_scope.

Section Flat.
Context {E : Env}.
Notation cursor := (cursor E).
Notation style := (style E).
Notation svg := (svg E).
Notation C := (@C E).

(** ** The attributes of the group *)
Definition plain_key (d : string * string) : Prop := fst d <> "transform"%string /\ fst d <> "mask"%string.
Lemma plain_decls ds : Forall plain_key ds -> forall (st : style) (c : cursor) c1 st1, ProofsOrder.quiet c -> foldM readDecl st ds c = (c1, Ret st1) ->
  c1 = c /\ st_transform st1 = st_transform st
  /\ forall c', agree "" c c' -> foldM readDecl st ds c' = (c', Ret st1).
Proof.
  induction 1 as [|[k v] ds [H1 H2] _ IH]; intros st c c1 st1 Hq H; cbn [foldM] in H.
  - injection H as <- <-. repeat split; auto.
  - apply bindC in H as (c2 & st2 & K1 & K2). unfold readDecl in K1. cbn [fst snd] in *.
    destruct (decl_local _ _ _ _ _ _ Hq K1) as (us & e & He & Hu & -> & -> & K).
    assert (He' : e = NoEffect) by (destruct e; cbn in He; [reflexivity|contradiction|contradiction]). subst e. cbn [act] in *.
    destruct (IH _ _ _ _ Hq K2) as (-> & T & K3). split; [reflexivity|]. split.
    + rewrite T. assert (Ht : forall u, List.In u us -> projT1 u <> Transform).
      { intros u Hin Hf. specialize (Hu u Hin). rewrite Hf in Hu. apply H1. clear -Hu. unfold parts_named in Hu. cbn [List.find fst] in Hu.
        repeat match type of Hu with context [String.eqb k ?n] => destruct (String.eqb_spec k n); [cbn in Hu; intuition (try discriminate; auto)|] end. destruct Hu. }
      clear -Ht. revert st. induction us as [|[p x] us IHu]; intros st; [reflexivity|]. cbn [put_parts fold_left].
      change (st_transform (put_parts us (put_part p x st)) = st_transform st). rewrite IHu by (intros u Hu; apply Ht; right; exact Hu).
      specialize (Ht _ (or_introl eq_refl)). cbn in Ht. destruct p; try reflexivity. contradiction.
    + intros c' (A1 & A2 & A3 & A4 & A5 & _). cbn [foldM]. unfold bind, readDecl at 1. cbn [fst snd]. rewrite K.
      * cbn [act]. apply K3. repeat split; auto. discriminate.
      * repeat split; auto. intros Hf. destruct (H2 Hf).
      * auto.
Qed.
Lemma plain_pairs A ds : attrs_decls A ds -> Forall plain_key ds -> forall (st : style) (c : cursor) c1 st1, ProofsOrder.quiet c -> foldM stylePair st (stylePairs (E := E) A) c = (c1, Ret st1) ->
  c1 = c /\ st_transform st1 = st_transform st
  /\ forall c', agree "" c c' -> foldM stylePair st (stylePairs (E := E) A) c' = (c', Ret st1).
Proof.
  intros Ha Hd st c c1 st1 Hq H. rewrite (attrs_reads _ _ Ha) in H. destruct (plain_decls ds Hd st c c1 st1 Hq H) as (K1 & K2 & K3).
  split; [exact K1|]. split; [exact K2|]. intros c' Hc. rewrite (attrs_reads _ _ Ha). apply K3, Hc.
Qed.

(** ** States that differ in one style in the middle of the stack *)
Section Rel.
Context (vb : bounds E) (gr : smap nat) (gh : list (gradient E)) (md : errorMode) (stA st : style) (r : list style).
Context (Htr : st_transform stA = st_transform st).
Inductive Fc (b : list style) : cursor -> cursor -> Prop :=
| fc pc s g b1 b2 b5 d m : sv_viewBox s = vb -> sv_grads s = gr -> pc_mode pc = md ->
    Fc b (mkCur pc s (b ++ stA :: st :: r) g gh b1 b2 false false b5 d m) (mkCur pc s (b ++ st :: r) g gh b1 b2 false false b5 d m).
Ltac fcase := intros c1 c2 [pc s g b1 b2 b5 d m H1 H2 H3].
Section Body.
Context (b : list style).
Notation self m := (relV (Fc b) eq m m).
Lemma f_liftP {A} (m : M (pcur E) A) : keeps frame m -> self (liftP m).
Proof.
  intros Hm c1 c2 [pc s g b1 b2 b5 d m' H1 H2 H3]. unfold liftP. cbn. specialize (Hm pc).
  destruct (m pc) as [pc' [a|e| |]]; cbn in Hm; destruct Hm as (_ & _ & Hm); repeat split; try assumption; rewrite Hm; exact H3.
Qed.
Lemma f_onSvg f : (forall s, sv_viewBox (f s) = sv_viewBox s /\ sv_grads (f s) = sv_grads s) -> self (onSvg f).
Proof. intros Hf. apply rv_modify. fcase. destruct (Hf s) as [K1 K2]. apply (fc b pc (f s) g b1 b2 b5 d m); [rewrite K1; exact H1|rewrite K2; exact H2|exact H3]. Qed.
Lemma f_cParseUnit s p : self (cParseUnit s p).
Proof. intros c1 c2 H. unfold cParseUnit. assert (Hv : sv_viewBox (c_svg c1) = sv_viewBox (c_svg c2)) by (destruct H; reflexivity). rewrite Hv. destruct (resolveUnit _ s p); auto. Qed.
Lemma fr_println s : keeps frame (println (E := E) s). Proof. intros c. repeat split. Qed.
Lemma f_handleError msg : self (handleError msg).
Proof.
  unfold handleError. apply rv_bindE; [apply rv_gets; fcase; reflexivity|]. intros []; first [apply rv_raise|apply f_liftP, fr_println|apply rv_ret; reflexivity].
Qed.
Lemma f_points : self (gets (fun c : cursor => pc_points (c_pc c))). Proof. apply rv_gets. fcase. reflexivity. Qed.
Lemma f_topStyle : relV (Fc b) (fun x y => st_transform x = st_transform y) topStyle topStyle.
Proof. fcase. unfold topStyle. cbn. destruct b; cbn; (split; [auto|]); [exact (fc [] pc s g b1 b2 b5 d m H1 H2 H3)|exact (fc (s0 :: l) pc s g b1 b2 b5 d m H1 H2 H3)]. Qed.
Lemma f_topSame x b' : b = x :: b' -> self topStyle.
Proof. intros ->. fcase. unfold topStyle. cbn. split; [reflexivity|]. exact (fc (x :: b') pc s g b1 b2 b5 d m H1 H2 H3). Qed.
Ltac step1 :=
  match goal with
  | |- forall _, relV _ _ _ _ => intros ?
  | |- relV _ _ (ret _) _ => apply rv_ret; reflexivity
  | |- relV _ _ (raise _) _ => apply rv_raise
  | |- relV _ _ (lift _) _ => apply rv_lift
  | |- relV _ _ nofuel _ => apply rv_nofuel
  | |- relV _ _ (if _ then _ else _) _ => apply rv_if
  | |- relV _ _ (loop _ _ _ _ _) _ => apply rv_loop
  | |- relV _ _ (foldM _ _ _) _ => apply rv_foldM; intros
  | |- relV _ _ (mapM _ _) _ => apply rv_mapM; intros
  | |- relV _ _ (attempt _) _ => apply rv_attempt
  | |- relV _ _ (liftP _) _ => apply f_liftP; first [apply fr_getPoints|apply fr_compilePath|apply fr_fxp|apply fr_fxpt|apply fr_ellipseAt|apply fr_onPath]
  | |- relV _ _ (cGetPoints _) _ => apply f_liftP, fr_getPoints
  | |- relV _ _ (onCPath _) _ => apply f_liftP, fr_onPath
  | |- relV _ _ cPoints _ => apply f_points
  | |- relV _ _ (gets (fun c => pc_points (c_pc c))) _ => apply f_points
  | |- relV _ _ (cParseUnit _ _) _ => apply f_cParseUnit
  | |- relV _ _ (handleError _) _ => apply f_handleError
  | |- relV _ _ (bind _ _) _ => apply rv_bindE
  | |- relV _ _ (match ?x with _ => _ end) _ => destruct x
  | |- relV _ _ (let _ := _ in _) _ => cbv zeta
  end.
Lemma f_readGradURL v d : self (readGradURL v d).
Proof.
  unfold readGradURL. apply rv_if; [|step1]. apply rv_bindE; [apply rv_lift|]. intros s. cbv zeta.
  apply rv_if; [|step1]. apply rv_bindE; [apply rv_lift|]. intros id. apply rv_get. intros c1 c2 [pc sv g b1 b2 b5 d' m H1 H2 H3]. cbn [c_svg c_gheap].
  destruct (mget id (sv_grads sv)); repeat step1.
Qed.
Lemma f_parseDashes l : self (parseDashes l). Proof. induction l; cbn [parseDashes]; repeat step1. exact IHl. Qed.
Lemma f_transformStep m t : self (transformStep m t).
Proof. unfold transformStep. repeat step1. Qed.
Lemma f_parseTransform v : self (parseTransform v).
Proof. unfold parseTransform. eapply rv_bind; [apply f_topStyle|]. intros x y Hxy. cbv beta. rewrite Hxy. apply rv_foldM. apply f_transformStep. Qed.
Lemma f_appendStr x id : self (appendStr x id).
Proof. fcase. unfold appendStr. cbn [c_svg]. destruct (sl_len x <? sl_cap x); (split; [reflexivity|]); constructor; auto. Qed.
Lemma f_readStyleAttr s k v : self (readStyleAttr s k v).
Proof. unfold readStyleAttr. repeat (step1 || apply f_readGradURL || apply f_parseDashes || apply f_parseTransform || apply f_appendStr). Qed.
Lemma f_pairs l s : self (foldM stylePair s l).
Proof. apply rv_foldM. intros x p. unfold stylePair. repeat step1. apply f_readStyleAttr. Qed.
Ltac svg1 := apply f_onSvg; intros ?; split; reflexivity.
Lemma f_curXY : self curXY. Proof. apply rv_gets. fcase. reflexivity. Qed.
Lemma f_path : self (gets (fun c : cursor => pc_path (c_pc c))). Proof. apply rv_gets. fcase. reflexivity. Qed.
Ltac step2 := first [step1|apply f_curXY|apply f_path|svg1|apply rv_modify; intros ? ? []; constructor; auto; fail].
Definition quiet_tag (name : string) : bool := negb (existsb (String.eqb name) ["svg"; "defs"; "use"; "linearGradient"; "radialGradient"]%string).
Lemma f_drawFunc fuel name df : quiet_tag name = true -> drawFunc (E := E) fuel name = Some df -> forall l, self (df l).
Proof.
  unfold drawFunc, quiet_tag. cbn [existsb]. intros Hn H l.
  destruct (String.eqb name "svg"); [discriminate|].
  repeat match type of H with (if ?b then _ else _) = _ => destruct b; [injection H as <-|] end; try discriminate; try (rewrite ?orb_true_r in Hn; discriminate).
  - unfold gF. repeat step2.
  - unfold lineF, lineAttr. repeat step2.
  - unfold stopF. intros c1 c2 Hc. pose proof Hc as K. destruct K. cbn. split; [reflexivity|exact Hc].
  - unfold rectF, rectAttr. repeat step2.
  - unfold circleF, circleAttr. repeat step2.
  - unfold circleF, circleAttr. repeat step2.
  - unfold polylineF, polyAttr. repeat step2.
  - unfold polygonF, polylineF, polyAttr. repeat step2.
  - unfold pathF. repeat step2.
  - unfold descF. repeat step2.
  - unfold titleF. repeat step2.
  - unfold maskF, maskAttr. repeat step2.
Qed.
Lemma f_collectPath x b' : b = x :: b' -> self collectPath.
Proof.
  intros Hb. unfold collectPath. apply rv_get. fcase. cbn [c_pc c_inMask c_mask]. destruct (pc_path pc) as [|o q]; [step1|]. apply rv_bindE; [|repeat step1]. destruct b5.
  - destruct m as [m|]; [|step1]. apply rv_bindE; [eapply f_topSame, Hb|]. intros z. apply rv_modify. intros ? ? []. constructor; auto.
  - apply rv_bindE; [eapply f_topSame, Hb|]. intros z. svg1.
Qed.
Lemma f_endRest name : quiet_tag name = true -> self (endRest name).
Proof.
  unfold quiet_tag. cbn [existsb]. intros Hn. unfold endRest.
  apply rv_if. { intros c1 c2 Hc. pose proof Hc as K. destruct K. cbn. split; [reflexivity|exact Hc]. }
  apply rv_if.
  { apply rv_bindE; [apply rv_gets; intros ? ? []; reflexivity|]. intros o. apply rv_bindE; [|intros _; apply rv_modify; intros ? ? []; constructor; auto].
    destruct o as [m|]; [|step1]. apply rv_bindE; [svg1|]. intros _. apply rv_modify. intros ? ? []. constructor; auto. }
  apply rv_if; [apply rv_modify; intros ? ? []; constructor; auto|]. apply rv_if; [apply rv_modify; intros ? ? []; constructor; auto|].
  destruct (String.eqb name "defs"); [rewrite ?orb_true_r in Hn; discriminate|].
  destruct (String.eqb name "radialGradient"); [rewrite ?orb_true_r in Hn; discriminate|].
  destruct (String.eqb name "linearGradient"); [rewrite ?orb_true_r in Hn; discriminate|]. cbn [orb]. step1.
Qed.
Lemma f_chars s : self (charData s).
Proof.
  unfold charData. apply rv_get. intros c1 c2 [pc sv g b1 b2 b5 d m H1 H2 H3]. cbn [c_inTitle c_inDesc c_svg].
  apply rv_bindE; [|intros _]; (apply rv_if; [|step1]); (apply rv_bindE; [apply rv_lift|]; intros x; svg1).
Qed.
Lemma f_start x b' fuel name l : b = x :: b' -> quiet_tag name = true -> self (readStartElement fuel name l).
Proof.
  intros Hb Hn. unfold readStartElement. apply rv_get. fcase. cbn [c_inGrad c_inDefs andb]. cbv zeta.
  assert (Hu : drawFuncs (E := E) fuel name = drawFunc fuel name).
  { unfold drawFuncs. destruct (String.eqb name "use") eqn:Hu; [|reflexivity]. apply String.eqb_eq in Hu. subst name. discriminate. }
  rewrite Hu. destruct (drawFunc fuel name) as [df|] eqn:Hd; [|step1].
  apply rv_bindE; [apply rv_attempt, (f_drawFunc fuel name df Hn Hd)|]. intros o. apply rv_bindE; [eapply f_collectPath, Hb|]. intros _. repeat step1.
Qed.
End Body.

(** ** Runs that succeed *)
Definition okF {A} (b b' : list style) (m1 m2 : C A) : Prop := forall c1 c2, Fc b c1 c2 -> forall t1 a, m1 c1 = (t1, Ret a) -> exists t2, m2 c2 = (t2, Ret a) /\ Fc b' t1 t2.
Lemma ok_self {A} b (m1 m2 : C A) : relV (Fc b) eq m1 m2 -> okF b b m1 m2.
Proof.
  intros H s1 s2 Hs t1 a H1. specialize (H s1 s2 Hs). rewrite H1 in H. destruct (m2 s2) as [t2 [x|e| |]]; try contradiction. destruct H as [<- H]. eauto.
Qed.
Lemma ok_bind {A B} b b' b'' (m1 m2 : C A) (k1 k2 : A -> C B) : okF b b' m1 m2 -> (forall a, okF b' b'' (k1 a) (k2 a)) -> okF b b'' (bind m1 k1) (bind m2 k2).
Proof.
  intros Hm Hk s1 s2 Hs t1 x H. apply bindC in H as (c1 & a & H1 & H2). destruct (Hm _ _ Hs _ _ H1) as (c2 & H3 & Hc). unfold bind. rewrite H3. exact (Hk a _ _ Hc _ _ H2).
Qed.
Lemma ok_pop x b : okF (x :: b) b popStyle popStyle.
Proof. intros c1 c2 [pc s g b1 b2 b5 d m H1 H2 H3] t1 a H. cbn in *. injection H as <- <-. eexists. split; [reflexivity|]. constructor; auto. Qed.
Lemma ok_end x b name : quiet_tag name = true -> okF (x :: b) b (endElement name) (endElement name).
Proof. intros Hn. rewrite endElement_rest. eapply ok_bind; [apply ok_pop|]. intros _. apply ok_self, f_endRest, Hn. Qed.
(** an element inside one of the children *)
Lemma ok_push x b l c1 c2 t1 : Fc (x :: b) c1 c2 -> pushStyle l c1 = (t1, Ret tt) -> exists y t2, pushStyle l c2 = (t2, Ret tt) /\ Fc (y :: x :: b) t1 t2.
Proof.
  intros Hc H. unfold pushStyle in *. apply bindC in H as (c3 & top & H1 & H). apply bindC in H as (c4 & y & H2 & H3).
  destruct (ok_self _ _ _ (f_topSame (x :: b) x b eq_refl) _ _ Hc _ _ H1) as (c5 & K1 & Hc1).
  destruct (ok_self _ _ _ (f_pairs (x :: b) (stylePairs (E := E) l) top) _ _ Hc1 _ _ H2) as (c6 & K2 & Hc2).
  injection H3 as <-. exists y. unfold bind. rewrite K1, K2. eexists. split; [reflexivity|]. destruct Hc2. exact (fc (y :: x :: b) pc s g b1 b2 b5 d m H H0 H3).
Qed.
Lemma ok_node fuel : forall n x b, quiet_tree n = true -> okF (x :: b) (x :: b) (mapM (stepToken fuel) (tokens n)) (mapM (stepToken fuel) (tokens n)).
Proof.
  induction n as [name l kids IH|s|] using node_ind'; intros x b Hq.
  - cbn [quiet_tree] in Hq. apply andb_prop in Hq as [Hn Hk].
    intros c1 c2 Hc t1 [] H. cbn [tokens mapM] in *. apply bindC in H as (c3 & [] & H1 & H). cbn [stepToken] in H1. apply bindC in H1 as (c4 & [] & H1 & H2).
    destruct (ok_push _ _ _ _ _ _ Hc H1) as (y & c5 & K1 & Hc1).
    destruct (ok_self _ _ _ (f_start (y :: x :: b) y (x :: b) fuel name l eq_refl Hn) _ _ Hc1 _ _ H2) as (c6 & K2 & Hc2).
    unfold bind at 1. cbn [stepToken]. unfold bind at 1. rewrite K1, K2. clear K1 K2 H1 H2 Hc Hc1 c1 c2 c4 c5.
    revert t1 H. apply (fun K => K c3 c6 Hc2). clear c3 c6 Hc2. intros c1 c2 Hc t1 H.
    rewrite mapM_app in H. apply bindC in H as (c3 & [] & H1 & H2). rewrite mapM_app.
    assert (Hks : okF (y :: x :: b) (y :: x :: b) (mapM (stepToken fuel) (flat_map tokens kids)) (mapM (stepToken fuel) (flat_map tokens kids))).
    { clear -IH Hk. induction IH as [|k kids Hk1 _ IHk]; [apply ok_self; intros ? ? K; cbn; auto|]. cbn [forallb] in Hk. apply andb_prop in Hk as [Hk2 Hk3].
      cbn [flat_map]. intros c1 c2 Hc t1 [] H. rewrite mapM_app in H. rewrite mapM_app. revert c1 c2 Hc t1 H.
      intros c1 c2 Hc t1 H. exact (ok_bind _ _ _ _ _ _ _ (Hk1 y (x :: b) Hk2) (fun _ => IHk Hk3) _ _ Hc _ _ H). }
    destruct (Hks _ _ Hc _ _ H1) as (c4 & K1 & Hc1). unfold bind. rewrite K1.
    exact (ok_bind _ _ _ _ _ _ _ (ok_end y (x :: b) name Hn) (fun _ => ok_self _ _ _ (rv_ret (Fc (x :: b)) eq tt tt eq_refl)) _ _ Hc1 _ _ H2).
  - cbn [tokens mapM stepToken]. eapply ok_bind; [apply ok_self, f_chars|]. intros _. apply ok_self, rv_ret. reflexivity.
  - cbn [tokens mapM stepToken]. eapply ok_bind; [apply ok_self, rv_ret; reflexivity|]. intros _. apply ok_self, rv_ret. reflexivity.
Qed.

(** ** The children *)
Context (A : list attr) (HA : Forall (fun a => ~ List.In (a_name a) element_names) A).
Context (Hread : forall c' : cursor, c_stack c' = st :: r -> sv_viewBox (c_svg c') = vb -> sv_grads (c_svg c') = gr -> c_gheap c' = gh -> pc_mode (c_pc c') = md ->
  foldM stylePair st (stylePairs (E := E) A) c' = (c', Ret stA)).
Lemma skip_attrs {L} (f : L -> attr -> C L) B : (forall x a c, ~ List.In (a_name a) element_names -> f x a c = (c, Ret x)) ->
  forall x c, foldM f x (A ++ B) c = foldM f x B c.
Proof.
  intros Hf x c. clear Hread. induction HA as [|a l Ha Hl IH]; [reflexivity|]. cbn [app foldM]. unfold bind. rewrite Hf by exact Ha. exact (IH Hl).
Qed.
Lemma skip_bind {X Y} (m m' : C X) (k : X -> C Y) c : m c = m' c -> bind m k c = bind m' k c.
Proof. unfold bind. intros ->. reflexivity. Qed.
Ltac others H := rewrite !(fun n K => not_named n _ H K) by (vm_compute; tauto).
Lemma skip_draw fuel name df B c : quiet_tag name = true -> c_inGrad c = false -> drawFunc (E := E) fuel name = Some df -> df (A ++ B) c = df B c.
Proof.
  unfold drawFunc, quiet_tag. cbn [existsb]. intros Hn Hg H.
  destruct (String.eqb name "svg"); [discriminate|].
  repeat match type of H with (if ?b then _ else _) = _ => destruct b; [injection H as <-|] end; try discriminate; try (rewrite ?orb_true_r in Hn; discriminate).
  - reflexivity.
  - unfold lineF. apply skip_bind, skip_attrs. intros [[[x y] w] h] a c' Ha. unfold lineAttr. others Ha. reflexivity.
  - unfold stopF. unfold bind at 1. unfold bind at 2. unfold gets. rewrite Hg. reflexivity.
  - unfold rectF. apply skip_bind, skip_attrs. intros [[[[[x y] w] h] rx] ry] a c' Ha. unfold rectAttr. others Ha. reflexivity.
  - unfold circleF. apply skip_bind, skip_attrs. intros [[[x y] w] h] a c' Ha. unfold circleAttr. others Ha. reflexivity.
  - unfold circleF. apply skip_bind, skip_attrs. intros [[[x y] w] h] a c' Ha. unfold circleAttr. others Ha. reflexivity.
  - unfold polylineF. apply skip_bind, skip_attrs. intros [] a c' Ha. unfold polyAttr. others Ha. reflexivity.
  - unfold polygonF. apply skip_bind. unfold attempt. unfold polylineF.
    rewrite (skip_bind (foldM polyAttr tt (A ++ B)) (foldM polyAttr tt B)); [reflexivity|]. apply skip_attrs. intros [] a c' Ha. unfold polyAttr. others Ha. reflexivity.
  - unfold pathF. clear Hread. induction HA as [|a l Ha Hl IH]; [reflexivity|]. cbn [app mapM]. rewrite (not_named "d" a Ha) by (vm_compute; tauto). exact (IH Hl).
  - reflexivity.
  - reflexivity.
  - unfold maskF. apply skip_bind, skip_attrs. intros [[[[x y] w] h] rx] a c' Ha. unfold maskAttr. others Ha. reflexivity.
Qed.
Lemma skip_start fuel name B (c : cursor) : quiet_tag name = true -> c_inGrad c = false -> c_inDefs c = false -> readStartElement fuel name (A ++ B) c = readStartElement fuel name B c.
Proof.
  intros Hn Hg Hd. unfold readStartElement. unfold bind at 1, gets at 1. unfold bind at 4, gets at 1. cbv zeta. rewrite Hd. cbn [andb].
  assert (Hu : drawFuncs (E := E) fuel name = drawFunc fuel name).
  { unfold drawFuncs. destruct (String.eqb name "use") eqn:Hu; [|reflexivity]. apply String.eqb_eq in Hu. subst name. discriminate. }
  rewrite Hu. destruct (drawFunc fuel name) as [df|] eqn:Hdf; [|reflexivity]. apply skip_bind. unfold attempt. rewrite (skip_draw fuel name df B c Hn Hg Hdf). reflexivity.
Qed.
Lemma kid_push B c1 c2 t1 : Fc [] c1 c2 -> pushStyle B c1 = (t1, Ret tt) -> exists y t2, pushStyle (A ++ B) c2 = (t2, Ret tt) /\ Fc [y] t1 t2.
Proof.
  intros Hc H. unfold pushStyle in *. apply bindC in H as (c3 & top & H1 & H). apply bindC in H as (c4 & y & H2 & H3).
  assert (Hs : c_stack c1 = stA :: st :: r /\ c_stack c2 = st :: r) by (destruct Hc; split; reflexivity). destruct Hs as [Hs1 Hs2].
  unfold topStyle in H1. rewrite Hs1 in H1. injection H1 as <- <-.
  destruct (ok_self _ _ _ (f_pairs [] (stylePairs (E := E) B) stA) _ _ Hc _ _ H2) as (c6 & K2 & Hc2).
  injection H3 as <-. exists y. unfold bind at 1, topStyle. rewrite Hs2. unfold bind at 1.
  replace (stylePairs (E := E) (A ++ B)) with (stylePairs (E := E) A ++ stylePairs (E := E) B) by (unfold stylePairs; symmetry; apply flat_map_app).
  rewrite ProofsStyle.foldM_app. unfold bind at 1. rewrite Hread by (destruct Hc; auto). rewrite K2. eexists. split; [reflexivity|].
  destruct Hc2 as [pc s g b1 b2 b5 d m G1 G2 G3]. exact (fc [y] pc s g b1 b2 b5 d m G1 G2 G3).
Qed.
Lemma ok_kid fuel n : quiet_tree n = true -> okF [] [] (mapM (stepToken fuel) (tokens n)) (mapM (stepToken fuel) (tokens (inherit A n))).
Proof.
  destruct n as [name l kids|s|]; intros Hq.
  - cbn [quiet_tree] in Hq. apply andb_prop in Hq as [Hn Hk].
    intros c1 c2 Hc t1 [] H. cbn [inherit tokens mapM] in *. apply bindC in H as (c3 & [] & H1 & H). cbn [stepToken] in H1. apply bindC in H1 as (c4 & [] & H1 & H2).
    destruct (kid_push _ _ _ _ Hc H1) as (y & c5 & K1 & Hc1).
    destruct (ok_self _ _ _ (f_start [y] y [] fuel name l eq_refl Hn) _ _ Hc1 _ _ H2) as (c6 & K2 & Hc2).
    unfold bind at 1. cbn [stepToken]. unfold bind at 1. rewrite K1, skip_start, K2 by (first [exact Hn|destruct Hc1; reflexivity]). clear K1 K2 H1 H2 Hc Hc1 c1 c2 c4 c5.
    rewrite mapM_app in H. apply bindC in H as (c7 & [] & H1 & H2). rewrite mapM_app.
    assert (Hks : okF [y] [y] (mapM (stepToken fuel) (flat_map tokens kids)) (mapM (stepToken fuel) (flat_map tokens kids))).
    { clear -Hk Htr. induction kids as [|k kids IHk]; [apply ok_self; intros ? ? K; cbn; auto|]. cbn [forallb] in Hk. apply andb_prop in Hk as [Hk2 Hk3].
      cbn [flat_map]. intros c1 c2 Hc t1 [] H. rewrite mapM_app in H. rewrite mapM_app.
      exact (ok_bind _ _ _ _ _ _ _ (ok_node fuel k y [] Hk2) (fun _ => IHk Hk3) _ _ Hc _ _ H). }
    destruct (Hks _ _ Hc2 _ _ H1) as (c4 & K1 & Hc1). unfold bind. rewrite K1.
    exact (ok_bind _ _ _ _ _ _ _ (ok_end y [] name Hn) (fun _ => ok_self _ _ _ (rv_ret (Fc []) eq tt tt eq_refl)) _ _ Hc1 _ _ H2).
  - cbn [inherit tokens mapM stepToken]. eapply ok_bind; [apply ok_self, f_chars|]. intros _. apply ok_self, rv_ret. reflexivity.
  - cbn [inherit tokens mapM stepToken]. eapply ok_bind; [apply ok_self, rv_ret; reflexivity|]. intros _. apply ok_self, rv_ret. reflexivity.
Qed.
Lemma ok_kids fuel kids : forallb quiet_tree kids = true ->
  okF [] [] (mapM (stepToken fuel) (flat_map tokens kids)) (mapM (stepToken fuel) (flat_map tokens (map (inherit A) kids))).
Proof.
  induction kids as [|k kids IH]; intros Hk; [apply ok_self, rv_ret; reflexivity|]. cbn [forallb] in Hk. apply andb_prop in Hk as [Hk1 Hk2].
  cbn [map flat_map]. intros c1 c2 Hc t1 [] H. rewrite mapM_app in H. rewrite mapM_app.
  exact (ok_bind _ _ _ _ _ _ _ (ok_kid fuel k Hk1) (fun _ => IH Hk2) _ _ Hc _ _ H).
Qed.
End Rel.

(** ** A group *)
Lemma start_g fuel A (c : cursor) : c_inDefs c = false -> pc_path (c_pc c) = [] -> readStartElement fuel "g" A c = (c, Ret tt).
Proof.
  intros Hd Hp. unfold readStartElement, bind, gets. rewrite Hd. cbn [andb]. cbv zeta. change (drawFuncs fuel "g") with (Some (@gF E)). cbv iota. unfold attempt, gF, ret.
  unfold collectPath, bind, gets. rewrite Hp. reflexivity.
Qed.
Lemma group_run fuel A kids (c t : cursor) : group_attrs A -> forallb quiet_tree kids = true -> ProofsOrder.quiet c -> c_inDefs c = false -> c_inGrad c = false -> pc_path (c_pc c) = [] ->
  mapM (stepToken fuel) (tokens (Elem "g" A kids)) c = (t, Ret tt) -> mapM (stepToken fuel) (flat_map tokens (map (inherit A) kids)) c = (t, Ret tt).
Proof.
  intros ((ds & Hds & Hk) & Hn) Hks Hq Hd Hg Hp H. cbn [tokens mapM] in H. apply bindC in H as (c1 & [] & H1 & H). cbn [stepToken] in H1.
  apply bindC in H1 as (c2 & [] & H1 & H2). unfold pushStyle in H1. apply bindC in H1 as (c3 & top & H1 & H3). apply bindC in H3 as (c4 & stA & H3 & H4).
  unfold topStyle in H1. destruct (c_stack c) as [|st r] eqn:Hs; [discriminate|]. injection H1 as <- <-.
  destruct (plain_pairs A ds Hds Hk _ _ _ _ Hq H3) as (-> & Htr & Hread). injection H4 as <-.
  rewrite Hs in H2. assert (c1 = c_set_stack (stA :: st :: r) c) as ->.
  { rewrite start_g in H2 by assumption. congruence. }
  rewrite mapM_app in H. apply bindC in H as (c5 & [] & H5 & H6).
  pose (vb := sv_viewBox (c_svg c)). pose (gr := sv_grads (c_svg c)). pose (gh := c_gheap c). pose (md := pc_mode (c_pc c)).
  assert (Hc : Fc vb gr gh md stA st r [] (c_set_stack (stA :: st :: r) c) c).
  { subst vb gr gh md. destruct c. cbn in *. subst. exact (fc _ _ _ _ stA st r [] c_pc c_svg c_grad c_inTitle c_inDesc c_inMask c_curDef c_mask eq_refl eq_refl eq_refl). }
  destruct (ok_kids vb gr gh md stA st r Htr A Hn) with (fuel := fuel) (kids := kids) (c1 := c_set_stack (stA :: st :: r) c) (c2 := c) (t1 := c5) (a := tt) as (t2 & K1 & K2); auto.
  { intros c' S1 S2 S3 S4 S5. apply Hread. repeat split; auto. { congruence. } discriminate. }
  rewrite K1. f_equal. destruct K2 as [pc s g b1 b2 b5 d m G1 G2 G3]. clear -H6. cbn in H6. injection H6 as <-. reflexivity.
Qed.

(** ** Documents *)
Lemma run_quiet fuel toks (c t : cursor) : ProofsOrder.quiet c -> mapM (stepToken fuel) toks c = (t, Ret tt) -> ProofsOrder.quiet t.
Proof.
  intros Hq H. assert (Hc : Qc c c).
  { destruct c as [pc s k g gh b1 b2 b3 b4 b5 d m]. destruct s as [vb ti de ps tr ms w h gr e hp]. constructor; [constructor| |exact Hq].
    - clear. induction e as [|[x ds] e IH]; constructor; [|exact IH]. split; [reflexivity|]. cbn. induction ds; constructor; [repeat split; left; reflexivity|assumption].
    - clear. induction d; constructor; [repeat split; left; reflexivity|assumption]. }
  assert (Ht : Forall2 reordered_token toks toks) by (clear; induction toks; constructor; [constructor|assumption]).
  destruct (rs_tokens fuel toks toks Ht c c Hc t tt H) as (t2 & _ & Hc2). exact (qc_quiet _ _ Hc2).
Qed.
Definition opens (pre : list token) : Prop := exists name attrs, List.In (TStart name attrs) pre.
Lemma opens_seen pre l : opens pre -> seenTag (pre ++ l) = true.
Proof. intros (n & at' & H). unfold seenTag. rewrite existsb_app. apply orb_true_iff. left. apply existsb_exists. exists (TStart n at'). auto. Qed.
Lemma one_group fuel mode u pre A kids post (s : svg) log : mode <> WarnErrorMode -> tidy_at u pre -> opens pre -> group_attrs A -> forallb quiet_tree kids = true ->
  parse fuel mode (pre ++ tokens (Elem "g" A kids) ++ post) TermEOF = PSvg s None log ->
  parse fuel mode (pre ++ flat_map tokens (map (inherit A) kids) ++ post) TermEOF = PSvg s None log.
Proof.
  intros Hm Hp Ho HA Hk H. unfold parse in *. rewrite opens_seen in * by exact Ho. rewrite !mapM_app in *.
  destruct (bind (mapM (stepToken fuel) pre) _ (cursor0 mode)) as [c [[]|e| |]] eqn:Hr in H; try discriminate.
  apply bindC in Hr as (c1 & [] & H1 & H2). unfold bind. rewrite H1. rewrite mapM_app in H2. rewrite mapM_app. apply bindC in H2 as (c2 & [] & H2 & H3).
  destruct (tidy_at_st fuel mode u pre Hp c1 H1) as (T & Dd & Hst).
  assert (Hq : ProofsOrder.quiet c1) by (apply (run_quiet fuel pre (cursor0 mode)); [exact Hm|exact H1]).
  unfold bind. rewrite (group_run fuel A kids c1 c2 HA Hk Hq (st_defs _ _ _ _ _ _ _ _ _ _ Hst) (st_grad _ _ _ _ _ _ _ _ _ _ Hst) (st_path _ _ _ _ _ _ _ _ _ _ Hst) H2), H3. exact H.
Qed.
Lemma decls_app l ds : attrs_decls l ds -> forall l' ds', attrs_decls l' ds' -> attrs_decls (l ++ l') (ds ++ ds').
Proof. induction 1 as [|a d l ds Ha _ IH]; intros l' ds' H'; [exact H'|]. cbn [app]. rewrite <- app_assoc. constructor; [exact Ha|apply IH, H']. Qed.
Lemma group_app A B : group_attrs A -> group_attrs B -> group_attrs (A ++ B).
Proof.
  intros ((ds & H1 & H2) & H3) ((es & H4 & H5) & H6). split; [|apply Forall_app; auto]. exists (ds ++ es). split; [apply decls_app; assumption|apply Forall_app; auto].
Qed.
Lemma heir_inherit A n : heir (inherit A n) = heir n. Proof. destruct n; reflexivity. Qed.
Lemma heir_group attrs kids : forallb heir kids = true -> heir (Elem "g" attrs kids) = true.
Proof.
  unfold heir. cbn [quiet_tree flat_in]. change (existsb (String.eqb "g") _) with false. cbn [negb andb].
  change (String.eqb "g" "title") with false. change (String.eqb "g" "desc") with false. cbv iota.
  induction kids as [|k kids IH]; [reflexivity|]. cbn [forallb]. rewrite !andb_true_iff. intros (((K1 & K2) & K3) & K4). specialize (IH K4). rewrite !andb_true_iff in IH. tauto.
Qed.
Lemma flat_heirs above ns ms : flattened above ns ms -> forallb heir ns = true /\ forallb heir ms = true.
Proof.
  induction 1 as [above|above n ns ms Hn _ [IH1 IH2]|above attrs kids ms1 ns ms2 _ _ [IH1 IH2] _ [IH3 IH4]]; [auto| |].
  - cbn [forallb]. rewrite heir_inherit, Hn. auto.
  - cbn [forallb]. rewrite heir_group by exact IH1. rewrite forallb_app, IH2. auto.
Qed.
Lemma quiet_tidy u n : quiet_tree n = true -> tidy u false n = true.
Proof.
  induction n as [name l kids IH|s|] using node_ind'; [|reflexivity|reflexivity]. cbn [quiet_tree tidy existsb]. rewrite andb_true_iff, negb_true_iff, !orb_false_iff.
  intros ((_ & Hd & Hu & Hl & Hr & _) & Hk). unfold is_gradient. rewrite Hl, Hr, Hd, Hu. cbn [orb negb]. rewrite orb_true_r. cbn [andb].
  apply forallb_forall. intros k Hin. rewrite Forall_forall in IH. rewrite forallb_forall in Hk. auto.
Qed.
Lemma heirs_tidy u ns : forallb heir ns = true -> tidy_doc u ns = true.
Proof.
  intros H. unfold tidy_doc. apply forallb_forall. intros n Hin. rewrite forallb_forall in H. specialize (H n Hin). unfold heir in H. rewrite !andb_true_iff in H. destruct H as ((H1 & H2) & H3).
  rewrite (quiet_tidy u n H1), H2, H3. reflexivity.
Qed.
Lemma heirs_quiet ns : forallb heir ns = true -> forallb quiet_tree ns = true.
Proof. rewrite !forallb_forall. intros H n Hin. specialize (H n Hin). unfold heir in H. rewrite !andb_true_iff in H. tauto. Qed.
Lemma opens_app pre l : opens pre -> opens (pre ++ l).
Proof. intros (n & at' & H). exists n, at'. apply in_or_app. left. exact H. Qed.
Lemma flatten_quiet fuel mode u above ns ms : flattened above ns ms -> mode <> WarnErrorMode -> group_attrs above -> forall pre post (s : svg) log, tidy_at u pre -> opens pre ->
  parse fuel mode (pre ++ flat_map tokens (map (inherit above) ns) ++ post) TermEOF = PSvg s None log ->
  parse fuel mode (pre ++ flat_map tokens ms ++ post) TermEOF = PSvg s None log.
Proof.
  induction 1 as [above|above n ns ms Hn _ IH|above attrs kids ms1 ns ms2 Hg Hf1 IH1 _ IH2]; intros Hm Ha pre post s log Hp Ho H.
  - exact H.
  - cbn [map flat_map] in *. rewrite <- app_assoc in *. rewrite app_assoc in *. apply (IH Hm Ha); [|apply opens_app, Ho|exact H].
    pose proof (ta_nodes u pre [inherit above n] Hp) as K. cbn [flat_map] in K. rewrite app_nil_r in K. apply K, heirs_tidy. cbn [forallb]. rewrite heir_inherit, Hn. reflexivity.
  - cbn [map flat_map inherit] in H. rewrite <- app_assoc in H. rewrite flat_map_app, <- app_assoc.
    destruct (flat_heirs _ _ _ Hf1) as [Hk1 Hk2].
    apply (one_group fuel mode u) in H; auto; [|apply group_app; assumption|apply heirs_quiet, Hk1].
    apply (IH1 Hm (group_app _ _ Ha Hg)) in H; auto. rewrite app_assoc in *. apply (IH2 Hm Ha); [|apply opens_app, Ho|exact H].
    apply ta_nodes; [exact Hp|]. apply heirs_tidy, Hk2.
Qed.
Lemma inherit_nil ns : map (inherit []) ns = ns.
Proof. induction ns as [|[name l kids|s|] ns IH]; [reflexivity| | |]; cbn; rewrite IH; reflexivity. Qed.
Theorem groups_flattened fuel mode u pre ns ms post (s : svg) log : tidy_at u pre -> (exists name attrs, List.In (TStart name attrs) pre) -> flattened [] ns ms ->
  parse fuel mode (pre ++ flat_map tokens ns ++ post) TermEOF = PSvg s None log ->
  exists log', parse fuel mode (pre ++ flat_map tokens ms ++ post) TermEOF = PSvg s None log'.
Proof.
  intros Hp Ho Hf H.
  assert (Hnil : group_attrs []) by (split; [exists []; split; constructor|constructor]).
  assert (Q : forall md log0, md <> WarnErrorMode -> parse fuel md (pre ++ flat_map tokens ns ++ post) TermEOF = PSvg s None log0 -> parse fuel md (pre ++ flat_map tokens ms ++ post) TermEOF = PSvg s None log0).
  { intros md log0 Hm K. apply (flatten_quiet fuel md u [] ns ms Hf Hm Hnil); auto. rewrite inherit_nil. exact K. }
  assert (Hmode : mode = WarnErrorMode \/ mode <> WarnErrorMode) by (destruct mode; auto; right; discriminate).
  destruct Hmode as [->|Hm]; [|eauto].
  pose proof (lenient_same (E := E) fuel WarnErrorMode IgnoreErrorMode (pre ++ flat_map tokens ns ++ post) TermEOF ltac:(discriminate) ltac:(discriminate)) as K.
  rewrite H in K. destruct (parse fuel IgnoreErrorMode (pre ++ flat_map tokens ns ++ post) TermEOF) as [e|s' e' log'| |] eqn:Hi; cbn in K; try discriminate. injection K as <- <-.
  apply Q in Hi; [|discriminate].
  pose proof (lenient_same (E := E) fuel WarnErrorMode IgnoreErrorMode (pre ++ flat_map tokens ms ++ post) TermEOF ltac:(discriminate) ltac:(discriminate)) as K.
  rewrite Hi in K. destruct (parse fuel WarnErrorMode (pre ++ flat_map tokens ms ++ post) TermEOF) as [e|s' e' log2| |]; cbn in K; try discriminate. injection K as <- <-. eauto.
Qed.
Theorem bare_group fuel mode u pre kids post (s : svg) log : tidy_at u pre -> (exists name attrs, List.In (TStart name attrs) pre) -> forallb heir kids = true ->
  parse fuel mode (pre ++ tokens (Elem "g" [] kids) ++ post) TermEOF = PSvg s None log ->
  exists log', parse fuel mode (pre ++ flat_map tokens kids ++ post) TermEOF = PSvg s None log'.
Proof.
  intros Hp Ho Hk H. apply (groups_flattened fuel mode u pre [Elem "g" [] kids] kids post s log Hp Ho).
  - rewrite <- (app_nil_r kids) at 2. apply fl_group; [split; [exists []; split; constructor|constructor]| |constructor].
    clear -Hk. rewrite <- (inherit_nil kids) at 2. induction kids as [|k kids IH]; [constructor|]. cbn [forallb] in Hk. apply andb_prop in Hk as [H1 H2].
    cbn [map]. apply fl_keep; auto.
  - cbn [flat_map]. rewrite app_nil_r. exact H.
Qed.
End Flat.

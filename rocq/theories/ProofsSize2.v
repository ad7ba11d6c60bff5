(** * ProofsSize2: how many path operations a document draws *)
From Coq Require Import Lia.
From Verif Require Export ProofsSize.
Local Open Scope go_scope.

Section Size.
Context {E : Env}.
Notation F := (F E).
Notation C := (@C E).
Notation cursor := (cursor E).

(** the operations stored so far, in the masks, in the mask under way and in the unfinished path *)
Definition tot (c : cursor) : nat :=
  plen (c_pc c) + svg_ops (c_svg c) + match c_mask c with Some m => path_ops (mk_paths m) | None => 0 end.
Definition quiet (c c' : cursor) : Prop := tot c' <= tot c.
Lemma qt_refl c : quiet c c. Proof. unfold quiet. lia. Qed.
Lemma qt_trans a b c : quiet a b -> quiet b c -> quiet a c. Proof. unfold quiet. lia. Qed.
Notation kq := (keeps quiet).
Lemma path_ops_app (l l' : list (svgPath E)) : path_ops (l ++ l') = path_ops l + path_ops l'.
Proof. unfold path_ops. rewrite map_app, list_sum_app. reflexivity. Qed.
Ltac kstep := first
  [ assumption
  | match goal with
    | |- forall _, keeps _ _ => intros ?
    | |- forall _ _, keeps _ _ => intros ? ?
    | |- keeps _ (ret _) => apply (keeps_ret _ qt_refl)
    | |- keeps _ (raise _) => apply (keeps_raise _ qt_refl)
    | |- keeps _ (lift _) => apply (keeps_lift _ qt_refl)
    | |- keeps _ (gets _) => apply (keeps_gets _ qt_refl)
    | |- keeps _ cPoints => apply (keeps_gets _ qt_refl)
    | |- keeps _ curXY => apply (keeps_gets _ qt_refl)
    | |- keeps _ (bind _ _) => apply (keeps_bind _ qt_trans)
    | |- keeps _ (attempt _) => apply keeps_attempt
    | |- keeps _ (if _ then _ else _) => apply keeps_if
    | |- keeps _ (match ?x with _ => _ end) => destruct x
    | |- keeps _ (let _ := _ in _) => cbv zeta
    | |- keeps _ (cParseUnit _ _) => intros ?; apply qt_refl
    | |- keeps _ (onSvg _) => apply keeps_modify; intros ?; apply Nat.le_refl
    | |- keeps _ (modify _) => apply keeps_modify; intros ?; apply Nat.le_refl
    | |- keeps _ (foldM _ _ _) => apply (keeps_foldM _ qt_refl qt_trans)
    end ].
Ltac ks := repeat kstep.
Lemma qt_getPoints s : kq (liftP (getPoints (E := E) s)).
Proof.
  intros c. unfold liftP. destruct (getPoints_len s (c_pc c)) as [H _]. destruct (getPoints s (c_pc c)) as [p o]. cbn [fst] in *.
  unfold quiet, tot, plen. cbn. rewrite H. lia.
Qed.
Lemma qt_handleError s : kq (handleError (E := E) s).
Proof. unfold handleError. ks. intros c. apply Nat.le_refl. Qed.
Lemma qt_topStyle : kq (topStyle (E := E)). Proof. intros c. unfold topStyle. destruct (c_stack c); apply qt_refl. Qed.
Lemma qt_popStyle : kq (popStyle (E := E)). Proof. intros c. unfold popStyle. destruct (c_stack c); apply Nat.le_refl. Qed.
Lemma qt_parseTransform v : kq (parseTransform (E := E) v).
Proof. unfold parseTransform, transformStep. ks; try apply qt_topStyle; apply qt_getPoints. Qed.
Lemma qt_appendStr s id : kq (appendStr (E := E) s id).
Proof. intros c. unfold appendStr. destruct (sl_len s <? sl_cap s); apply Nat.le_refl. Qed.
Lemma qt_parseDashes l : kq (parseDashes (E := E) l). Proof. induction l; cbn [parseDashes]; ks. Qed.
Lemma qt_readStyleAttr st k v : kq (readStyleAttr (E := E) st k v).
Proof. unfold readStyleAttr, readGradURL. repeat (kstep || apply qt_handleError || apply qt_parseDashes || apply qt_parseTransform || apply qt_appendStr). Qed.
Lemma qt_pushStyle attrs : kq (pushStyle (E := E) attrs).
Proof. unfold pushStyle, stylePair. ks; [apply qt_topStyle|apply qt_readStyleAttr]. Qed.
Lemma qt_svgF attrs : kq (svgF (E := E) attrs).
Proof. unfold svgF. ks. unfold svgAttr, cGetPoints. ks; apply qt_getPoints. Qed.
Lemma qt_maskF attrs : kq (maskF (E := E) attrs).
Proof. unfold maskF. ks. 2: { intros c. unfold quiet, tot. cbn. lia. } destruct l as [[[[id x] y] w] h]. unfold maskAttr. ks. Qed.
Lemma qt_onGrad f : kq (onGrad (E := E) f).
Proof. intros c. unfold onGrad. destruct (c_grad c); [|apply qt_refl]. destruct (nth_error _ _); apply Nat.le_refl. Qed.
Lemma qt_registerGrad id : kq (registerGrad (E := E) id).
Proof. intros c. unfold registerGrad. destruct (c_grad c); apply Nat.le_refl. Qed.
Lemma qt_theGrad : kq (theGrad (E := E)). Proof. intros c. unfold theGrad. destruct (c_grad c); apply Nat.le_refl. Qed.
Lemma qt_readGradAttr a : kq (readGradAttr (E := E) a).
Proof. unfold readGradAttr. repeat (kstep || apply qt_onGrad || apply qt_parseTransform). Qed.
Lemma qt_linear attrs : kq (linearGradientF (E := E) attrs).
Proof. unfold linearGradientF, linAttr, newGrad. repeat (kstep || apply qt_registerGrad || apply qt_theGrad || apply qt_onGrad || apply qt_readGradAttr). Qed.
Lemma qt_radial attrs : kq (radialGradientF (E := E) attrs).
Proof. unfold radialGradientF, radAttr, newGrad. repeat (kstep || apply qt_registerGrad || apply qt_theGrad || apply qt_onGrad || apply qt_readGradAttr). Qed.
Lemma qt_stopF attrs : kq (stopF (E := E) attrs).
Proof. unfold stopF, stopAttr. repeat (kstep || apply qt_onGrad). Qed.

(** ** What elements add *)
Definition ad {A} (n : nat) (m : C A) : Prop := forall c, tot (fst (m c)) <= tot c + n.
Lemma ad_quiet {A} (m : C A) : kq m -> ad 0 m. Proof. intros H c. specialize (H c). unfold quiet in H. lia. Qed.
Lemma ad_more {A} n k (m : C A) : ad n m -> n <= k -> ad k m. Proof. intros H Hk c. specialize (H c). lia. Qed.
Lemma ad_bind {A B} n k (m : C A) (f : A -> C B) : ad n m -> (forall a, ad k (f a)) -> ad (n + k) (bind m f).
Proof. intros H1 H2 c. unfold bind. specialize (H1 c). destruct (m c) as [c1 [a|e| |]]; cbn [fst] in *; [specialize (H2 a c1)|..]; lia. Qed.
Lemma ad_attempt n (m : C unit) : ad n m -> ad n (attempt m).
Proof. intros H c. specialize (H c). unfold attempt. destruct (m c) as [c1 [a|e| |]]; exact H. Qed.
Lemma ad_liftP {A} n (m : M (pcur E) A) : grows n m -> ad n (liftP m).
Proof. intros H c. unfold liftP. specialize (H (c_pc c)). destruct (m (c_pc c)) as [p o]. cbn [fst] in *. unfold tot. cbn. lia. Qed.
Lemma ad_onCPath n f : (forall p, List.length (f p) <= List.length p + n) -> ad n (onCPath (E := E) f).
Proof. intros H. apply ad_liftP. intros c. unfold onPath, modify, plen. cbn. apply H. Qed.
Lemma ad_fxp x y : ad 0 (liftP (fxp (E := E) x y)). Proof. apply ad_liftP. intros c. cbn. lia. Qed.
Lemma ad_fxpt i : ad 0 (liftP (fxpt (E := E) i)).
Proof. apply ad_liftP. intros c. destruct (hp_fxpt (E := E) (nlen c) i c (Nat.le_refl _)) as [H _]. exact H. Qed.
Lemma ad_loop n (body : nat -> C unit) : (forall i, ad n (body i)) -> forall fuel i step bound, 1 <= step -> ad (n * (bound - i)) (loop fuel i step bound body).
Proof.
  intros Hb. induction fuel as [|fuel IH]; intros i step bound Hs; cbn [loop]; destruct (i <? bound) eqn:Hi.
  - intros c. apply Nat.le_add_r.
  - intros c. apply Nat.le_add_r.
  - apply Nat.ltb_lt in Hi. apply ad_more with (n := n + n * (bound - (i + step))).
    + apply ad_bind; [apply Hb|]. intros []. apply IH, Hs.
    + replace (bound - i) with (S (bound - i - 1)) by lia. rewrite Nat.mul_succ_r. assert (n * (bound - (i + step)) <= n * (bound - i - 1)) by (apply Nat.mul_le_mono_l; lia). lia.
  - intros c. apply Nat.le_add_r.
Qed.

Context (A : nat) (A1 : 1 <= A)
  (HA : forall ps cx cy px py (p : path) p' l, addArc (E := E) ps cx cy px py p = Ret (p', l) -> List.length p' <= List.length p + A)
  (HR : forall fuel x0 y0 x1 y1 rx ry rot (p : path) p', addRoundRect (E := E) fuel x0 y0 x1 y1 rx ry rot p = Ret p' -> List.length p' <= List.length p + 4 * A).
Lemma ad_lineF attrs : ad 2 (lineF (E := E) attrs).
Proof.
  unfold lineF. apply (ad_bind 0 2); [apply ad_quiet; ks; destruct l as [[[x y] w] h]; unfold lineAttr; ks|]. intros [[[x1 x2] y1] y2].
  apply (ad_bind 0 2); [apply ad_fxp|]. intros a. apply (ad_bind 1 1); [apply ad_onCPath, pStart1|]. intros []. apply (ad_bind 0 1); [apply ad_fxp|]. intros b. apply ad_onCPath, pLine1.
Qed.
Lemma ad_rectF fuel attrs : ad (4 * A) (rectF (E := E) fuel attrs).
Proof.
  unfold rectF. apply (ad_bind 0 (4 * A)); [apply ad_quiet; ks; destruct l as [[[[[x y] w] h] rx] ry]; unfold rectAttr; ks|]. intros [[[[[x y] w] h] rx] ry].
  destruct (_ || _); [intros c; apply Nat.le_add_r|]. cbv zeta. apply (ad_bind 0 (4 * A)); [apply ad_quiet; ks|]. intros [cx cy].
  intros c. unfold bind, gets, lift. destruct (addRoundRect _ _ _ _ _ _ _ _ _) as [p'|e| |] eqn:H; [|apply Nat.le_add_r..].
  apply HR in H. unfold onCPath, liftP, onPath, modify, tot, plen. cbn. lia.
Qed.
Lemma ad_circleF attrs : ad (A + 2) (circleF (E := E) attrs).
Proof.
  unfold circleF. apply (ad_bind 0 (A + 2)); [apply ad_quiet; ks; destruct l as [[[x y] w] h]; unfold circleAttr; ks|]. intros [[[cx cy] rx] ry].
  destruct (_ || _); [intros c; apply Nat.le_add_r|]. apply (ad_bind 0 (A + 2)); [apply ad_quiet; ks|]. intros [ox oy]. apply ad_liftP, (ellipseAt_grows A A1 HA).
Qed.
Definition npts (c : cursor) : nat := nlen (c_pc c).
Lemma poly_fold attrs : forall c, let '(c', o) := foldM (polyAttr (E := E)) tt attrs c in
  tot c' <= tot c /\ (has_attr "points" attrs = true -> npts c' <= attrs_size attrs) /\ (npts c' <= npts c \/ npts c' <= attrs_size attrs).
Proof.
  induction attrs as [|a l IH]; intros c; cbn [foldM]. { split; [apply Nat.le_refl|]. split; [discriminate|left; apply Nat.le_refl]. }
  change (attrs_size (a :: l)) with (attr_size a + attrs_size l). unfold bind, polyAttr at 1, is. cbn [has_attr existsb]. unfold has_attr in IH.
  destruct (String.eqb (a_name a) "points") eqn:Ha; cbn [orb].
  - set (v := a_val a) in *. assert (Hv : String.length v <= attr_size a) by (unfold attr_size, v; lia).
    unfold bind, cGetPoints, attempt, liftP, cPoints, gets. cbn beta. destruct (getPoints_len v (c_pc c)) as [G1 G2]. destruct (getPoints v (c_pc c)) as [p o]. cbn [fst] in G1, G2.
    assert (T : tot (c_set_pc p c) = tot c) by (unfold tot, plen; cbn; rewrite G1; reflexivity).
    assert (N : npts (c_set_pc p c) <= attr_size a) by (unfold npts, nlen in *; cbn in *; lia).
    destruct o as [[]|e| |]; cbn beta iota zeta; [| |repeat split; [lia|intros; lia|right; lia]..].
    + destruct (negb _); [cbn beta iota zeta delta [raise]; repeat split; [lia|intros; lia|right; lia]|]. cbn beta iota zeta delta [ret].
      specialize (IH (c_set_pc p c)). destruct (foldM polyAttr tt l (c_set_pc p c)) as [c' o]. destruct IH as (I1 & I2 & I3). repeat split; [lia|intros; lia|right; lia].
    + destruct (negb _); cbn beta iota zeta delta [raise]; (repeat split; [lia|intros; lia|right; lia]).
  - cbn beta iota zeta delta [ret]. specialize (IH c). destruct (foldM polyAttr tt l c) as [c' o]. destruct IH as (I1 & I2 & I3). repeat split; [lia|intros K; specialize (I2 K); lia|]. lia.
Qed.
Lemma ad_polylineF attrs : has_attr "points" attrs = true -> forall c,
  tot (fst (polylineF (E := E) attrs c)) <= tot c + attrs_size attrs + 1.
Proof.
  intros Hp c. unfold polylineF. pose proof (poly_fold attrs c) as H. unfold bind at 1. destruct (foldM polyAttr tt attrs c) as [c1 [[]|e| |]]; destruct H as (H1 & H2 & _); [|cbn beta iota zeta delta [fst]; lia..].
  unfold cPoints, bind at 1, gets. specialize (H2 Hp). unfold npts in H2. fold (nlen (c_pc c1)). destruct (4 <? nlen (c_pc c1)); [|cbn beta iota zeta delta [fst ret]; lia].
  assert (K : ad (1 + nlen (c_pc c1)) (a <- liftP (fxpt (E := E) 0);; onCPath (pStart a);; loop (nlen (c_pc c1)) 2 2 (nlen (c_pc c1) - 1) (fun i => b <- liftP (fxpt i);; onCPath (pLine b)))).
  { apply (ad_bind 0 (1 + nlen (c_pc c1))); [apply ad_fxpt|]. intros a. apply (ad_bind 1); [apply ad_onCPath, pStart1|]. intros [].
    eapply ad_more; [apply (ad_loop 1); [|lia]|lia]. intros i. apply (ad_bind 0 1); [apply ad_fxpt|]. intros b. apply ad_onCPath, pLine1. }
  specialize (K c1). lia.
Qed.
Lemma ad_polygonF attrs : has_attr "points" attrs = true -> ad (attrs_size attrs + 2) (polygonF (E := E) attrs).
Proof.
  intros Hp. unfold polygonF. apply ad_more with (n := (attrs_size attrs + 1) + (0 + (1 + 0))); [|lia].
  apply ad_bind; [apply ad_attempt; intros c; pose proof (ad_polylineF attrs Hp c); lia|]. intros err. apply ad_bind; [apply ad_quiet; ks|]. intros ps.
  apply ad_bind; [destruct (4 <? _); [apply ad_onCPath, pStop1|intros c; apply Nat.le_add_r]|]. intros []. apply ad_quiet. ks.
Qed.
Lemma ad_pathF attrs : ad (A * attrs_size attrs) (pathF (E := E) attrs).
Proof.
  unfold pathF. induction attrs as [|a l IH]; cbn [mapM]; [intros c; apply Nat.le_add_r|]. change (attrs_size (a :: l)) with (attr_size a + attrs_size l). rewrite Nat.mul_add_distr_l.
  apply ad_bind; [|intros []; exact IH]. destruct (is a "d"); [|intros c; apply Nat.le_add_r]. eapply ad_more; [apply ad_liftP, (compilePath_grows A A1 HA)|].
  apply Nat.mul_le_mono_l. unfold attr_size. lia.
Qed.
(** a bound for an element with attributes [attrs] *)
Definition cost (attrs : list attr) : nat := 4 * A * (1 + attrs_size attrs).
Lemma ad_draw fuel name df attrs : drawFuncs (E := E) fuel name = Some df -> self_contained (TStart name attrs) -> ad (cost attrs) (df attrs).
Proof.
  intros Hd [Hu Hp]. unfold drawFuncs in Hd. apply String.eqb_neq in Hu. rewrite Hu in Hd. unfold drawFunc in Hd.
  assert (K0 : 4 * A + A * attrs_size attrs <= cost attrs). { unfold cost. rewrite Nat.mul_add_distr_l, Nat.mul_1_r. apply Nat.add_le_mono_l, Nat.mul_le_mono_r. lia. }
  assert (K1 : attrs_size attrs <= A * attrs_size attrs). { rewrite <- (Nat.mul_1_l (attrs_size attrs)) at 1. apply Nat.mul_le_mono_r, A1. }
  assert (Q : forall m : C unit, kq m -> ad (cost attrs) m). { intros m Hm. eapply ad_more; [apply ad_quiet, Hm|lia]. }
  repeat match type of Hd with (if String.eqb name ?s then _ else _) = _ => destruct (String.eqb name s) eqn:?; [injection Hd as <-|] end; try discriminate.
  - apply Q, qt_svgF. - apply Q. unfold gF. ks. - eapply ad_more; [apply ad_lineF|lia]. - apply Q, qt_stopF. - eapply ad_more; [apply ad_rectF|lia].
  - eapply ad_more; [apply ad_circleF|lia]. - eapply ad_more; [apply ad_circleF|lia].
  - assert (Hp' : has_attr "points" attrs = true) by (apply Hp; left; apply String.eqb_eq; assumption). intros c. pose proof (ad_polylineF attrs Hp' c). lia.
  - assert (Hp' : has_attr "points" attrs = true) by (apply Hp; right; apply String.eqb_eq; assumption). eapply ad_more; [apply ad_polygonF, Hp'|lia].
  - eapply ad_more; [apply ad_pathF|lia].
  - apply Q. unfold descF. ks. - apply Q. unfold defsF. ks. - apply Q. unfold titleF. ks. - apply Q, qt_linear. - apply Q, qt_radial. - apply Q, qt_maskF.
Qed.
Lemma qt_collectPath : kq (collectPath (E := E)).
Proof.
  intros c. unfold collectPath, bind, gets. destruct (pc_path (c_pc c)) as [|o p] eqn:Hp; [apply qt_refl|].
  assert (L : plen (c_pc c) = List.length (o :: p)) by (unfold plen; rewrite Hp; reflexivity).
  destruct (c_inMask c).
  - destruct (c_mask c) as [m|] eqn:Hm.
    + unfold topStyle. destruct (c_stack c) as [|st r]; [apply qt_refl|]. unfold quiet, tot. rewrite Hm, L. cbn -[path_ops]. rewrite path_ops_app. cbn. lia.
    + unfold quiet, tot. cbn -[svg_ops]. rewrite Hm. lia.
  - unfold topStyle. destruct (c_stack c) as [|st r]; [apply qt_refl|]. unfold quiet, tot, svg_ops. rewrite L. cbn -[path_ops list_sum]. rewrite path_ops_app. change (path_ops [{| sp_path := o :: p; sp_style := st |}]) with (S (List.length p + 0)). destruct (c_mask c); cbn [List.length]; lia.
Qed.
Lemma qt_flushDefs : kq (flushDefs (E := E)).
Proof. apply keeps_modify. intros c. destruct (c_curDef c); apply Nat.le_refl. Qed.
Lemma qt_masks (f : string * svgMask E -> bool) ms : list_sum (map (fun kv => path_ops (mk_paths (snd kv))) (filter f ms)) <= list_sum (map (fun kv => path_ops (mk_paths (snd kv))) ms).
Proof. induction ms as [|m ms IH]; cbn [filter map]; [apply Nat.le_refl|]. destruct (f m); cbn [map]; unfold list_sum in *; cbn [fold_right]; lia. Qed.
Lemma qt_endElement name : kq (endElement (E := E) name).
Proof.
  unfold endElement. apply (keeps_bind _ qt_trans); [apply qt_popStyle|]. intros []. apply keeps_if; [unfold addDef; ks|]. apply keeps_if; [|unfold addDef; ks; apply qt_flushDefs].
  intros c. unfold bind at 1, gets. destruct (c_mask c) as [m|] eqn:Hm; [|unfold quiet, tot; cbn -[svg_ops]; rewrite Hm; lia]. unfold quiet, tot, bind, onSvg, modify. rewrite Hm. unfold svg_ops. cbn -[path_ops list_sum filter map].
  pose proof (qt_masks (fun kv => negb (String.eqb (mk_id m) (fst kv))) (sv_masks (c_svg c))). unfold mput. cbn [map]. unfold list_sum in *. cbn [fold_right snd]. lia.
Qed.
Lemma qt_charData s : kq (charData (E := E) s). Proof. unfold charData. ks. Qed.
Lemma ad_step fuel t : self_contained t -> ad (4 * A * token_size t) (stepToken (E := E) fuel t).
Proof.
  intros Hs. assert (Q : forall n (m : C unit), kq m -> ad n m). { intros n m Hm. eapply ad_more; [apply ad_quiet, Hm|apply Nat.le_0_l]. }
  destruct t as [name attrs|name|s|]; cbn [stepToken]; [|apply Q, qt_endElement|apply Q, qt_charData|apply Q; ks].
  apply ad_more with (n := 0 + cost attrs). 2: { cbn [Nat.add]. unfold cost, token_size. apply Nat.mul_le_mono_l. lia. }
  apply ad_bind; [apply ad_quiet, qt_pushStyle|]. intros []. unfold readStartElement. apply (ad_bind 0 (cost attrs)); [apply ad_quiet; ks|]. intros c. cbv zeta.
  destruct (_ && _); [apply Q; unfold addDef; ks; apply qt_flushDefs|]. destruct (drawFuncs fuel name) as [df|] eqn:Hd; [|apply Q, qt_handleError].
  apply ad_more with (n := cost attrs + (0 + 0)); [|lia]. apply ad_bind; [apply ad_attempt; eapply ad_draw; eassumption|]. intros err.
  apply ad_bind; [apply ad_quiet, qt_collectPath|]. intros []. apply ad_quiet. ks.
Qed.
Theorem size_bound fuel mode toks tm s err log : Forall self_contained toks -> parse (E := E) fuel mode toks tm = PSvg s err log -> svg_ops s <= 4 * A * doc_size toks.
Proof.
  intros Hs Hp. assert (K : ad (4 * A * doc_size toks) (mapM (stepToken (E := E) fuel) toks)).
  { clear Hp. induction Hs as [|t toks Ht Hs IH]; cbn [mapM]; [intros c; apply Nat.le_add_r|]. change (doc_size (t :: toks)) with (token_size t + doc_size toks). rewrite Nat.mul_add_distr_l.
    apply ad_bind; [apply ad_step, Ht|]. intros []. exact IH. }
  specialize (K (cursor0 mode)). unfold tot at 2 in K. change (plen (c_pc (cursor0 (E := E) mode))) with 0 in K. change (svg_ops (c_svg (cursor0 (E := E) mode))) with 0 in K. cbn [c_mask cursor0] in K.
  unfold parse in Hp. destruct (mapM (stepToken fuel) toks (cursor0 mode)) as [c [[]|e| |]]; cbn [fst] in K; unfold tot in K; try discriminate.
  - destruct tm; [destruct (seenTag toks); [|discriminate]|]; injection Hp as <- <- <-; lia.
  - injection Hp as <- <- <-. lia.
Qed.
End Size.

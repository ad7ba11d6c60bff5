(** * ProofsSize5: polylines without points draw the points of an earlier element *)
From Coq Require Import Lia.
From Verif Require Import ProofsTree ProofsRoot ExTree ProofsSize2 ProofsSize4.
From Verif Require Export SpecSize.
Local Open Scope go_scope.

Section Stale.
Context {E : Env}.
Notation F := (F E).
Notation cursor := (cursor E).
Notation offc c := (pc_curX (c_pc c), pc_curY (c_pc c)).
Lemma polyline_again p ps (c : cursor) : pc_path (c_pc c) = [] -> pc_points (c_pc c) = flat_map (p1 E) (p :: ps) -> 2 <= List.length ps ->
  polylineF [] c = (c_set_pc (set_path (OpMoveTo (dot E (offc c) p) :: map (fun q => OpLineTo (dot E (offc c) q)) ps) (c_pc c)) c, Ret tt).
Proof.
  intros Hp H2 Hl. unfold polylineF. cbn [foldM]. unfold bind at 1, ret at 1.
  unfold cPoints. unfold bind at 1, gets at 1. rewrite H2.
  assert (HL : List.length (flat_map (p1 E) (p :: ps)) = 2 + List.length ps * 2) by (rewrite p1_len; reflexivity).
  rewrite HL. destruct (4 <? 2 + List.length ps * 2) eqn:Hlt; [|apply Nat.ltb_ge in Hlt; lia].
  unfold bind at 1, liftP at 1. rewrite (fxpt_app [] (flat_map (p1 E) ps) (fst p) (snd p)) by (reflexivity || exact H2 || (rewrite H2; destruct p; reflexivity)).
  unfold bind, onCPath at 1, liftP at 1, onPath, modify. cbn [c_pc c_set_pc].
  rewrite (loop_ext _ (fun i => liftP (b <- fxpt i ;; onPath (pLine b)))).
  2: { intros i d. unfold bind, liftP, onCPath. destruct (fxpt i (c_pc d)) as [q [a|e| |]]; reflexivity. }
  rewrite loop_lift. unfold liftP. cbn [c_pc c_set_pc]. rewrite Hp.
  rewrite (ops_loop (p1 E) 2 _ (fun q => [OpLineTo (dot E (offc c) q)]) (offc c)) with (l := ps) (pre := p1 E p); auto.
  - intros pre [x y] post d Hd Hq. unfold bind. rewrite (fxpt_app pre post x y) by auto. rewrite at_cur_dot. unfold ProofsSeg.offc in *. rewrite Hd. reflexivity.
  - lia.
Qed.
Definition ready (k : nat) (c : cursor) : Prop := exists st rest p ps,
  c_stack c = st :: rest /\ pc_path (c_pc c) = [] /\ pc_points (c_pc c) = flat_map (p1 E) (p :: ps) /\ List.length ps = k /\ 2 <= k
  /\ c_inDefs c = false /\ c_inMask c = false.
Definition ops_of (c : cursor) : nat := path_ops (sv_paths (c_svg c)).
(** a drawing element outside definitions and masks *)
Lemma drawn_elem fuel name attrs df (c c1 : cursor) st rest pc' o p : pushStyle attrs c = (c1, Ret tt) -> c_stack c1 = st :: rest -> c_inDefs c1 = false -> c_inMask c1 = false ->
  drawFuncs (S fuel) name = Some df -> df attrs c1 = (c_set_pc pc' c1, Ret tt) -> pc_path pc' = o :: p ->
  stepToken (S fuel) (TStart name attrs) c
  = (c_set_pc (set_path [] pc') (c_set_svg (sv_set_paths (sv_paths (c_svg c1) ++ [mkSvgPath (o :: p) st]) (c_svg c1)) c1), Ret tt).
Proof.
  intros Hp Hs Hd Hm Hf Hr Hpa. cbn [stepToken]. rewrite (bind_step _ _ _ _ _ Hp). unfold readStartElement.
  erewrite bind_step by (unfold gets; reflexivity). cbv beta zeta. rewrite Hd, Hf. cbn [andb].
  erewrite bind_step by (unfold attempt; rewrite Hr; reflexivity). unfold collectPath, bind, gets. cbn [c_pc c_set_pc]. rewrite Hpa. cbn [c_inMask c_set_pc]. rewrite Hm.
  unfold topStyle. cbn [c_stack c_set_pc]. rewrite Hs. reflexivity.
Qed.
Lemma push_nil (c : cursor) st rest : c_stack c = st :: rest -> pushStyle [] c = (c_set_stack (st :: st :: rest) c, Ret tt).
Proof. intros H. unfold pushStyle, bind, topStyle. rewrite H. change (stylePairs (E := E) []) with (@nil string). cbn [foldM]. unfold ret, modify. rewrite H. reflexivity. Qed.
Lemma again fuel k (c : cursor) : ready k c ->
  exists c', mapM (stepToken (S fuel)) [TStart "polyline" []; TEnd "polyline"] c = (c', Ret tt) /\ ready k c' /\ ops_of c' = ops_of c + S k.
Proof.
  intros (st & rest & p & ps & Hs & Hp & Hq & Hk & H2 & Hd & Hm).
  eexists. split.
  - cbn [mapM]. erewrite bind_step.
    2: { eapply drawn_elem with (st := st) (rest := st :: rest); [apply push_nil, Hs|reflexivity|exact Hd|exact Hm|reflexivity|apply (polyline_again p ps); [exact Hp|exact Hq|lia]|reflexivity]. }
    reflexivity.
  - split; [|unfold ops_of; cbn -[path_ops]; rewrite path_ops_app; cbn; rewrite map_length; lia].
    exists st, rest, p, ps. cbn. repeat split; auto.
Qed.
Lemma agains fuel k m : forall c, ready k c ->
  exists c', mapM (stepToken (S fuel)) (flat_map tokens (repeat (Elem "polyline" [] []) m)) c = (c', Ret tt) /\ ready k c' /\ ops_of c' = ops_of c + m * S k.
Proof.
  induction m as [|m IH]; intros c H; cbn [repeat flat_map]; [exists c; split; [reflexivity|]; split; [exact H|lia]|].
  destruct (again fuel k c H) as (c1 & K1 & R1 & O1). destruct (IH c1 R1) as (c2 & K2 & R2 & O2). exists c2. split; [|split; [exact R2|cbn [Nat.mul]; lia]].
  rewrite mapM_app. change (tokens (Elem "polyline" [] [])) with [TStart "polyline" []; TEnd "polyline"]. rewrite (bind_step _ _ _ _ _ K1). exact K2.
Qed.
Context (Hn : name_table E) (v : F) (Hv : parseFloat E "0" = Some v).
Lemma zeros_text k : zeros k = items_text (repeat (" ", num NoSign "0" None) k)%string.
Proof. induction k as [|k IH]; [reflexivity|]. cbn [zeros repeat items_text]. rewrite IH. reflexivity. Qed.
Lemma zeros_legal k prev : legal_items prev (repeat (" ", num NoSign "0" None) k)%string = true.
Proof. revert prev. induction k as [|k IH]; intros prev; [reflexivity|]. cbn [repeat legal_items]. rewrite IH. destruct prev; reflexivity. Qed.
Lemma zeros_spell k : exists z, spells_numbers E (zeros (2 * k)) (flat_map (p1 E) (repeat (z, z) k)).
Proof.
  exists (fmul E v (flit E 1 1)). exists (repeat (" ", num NoSign "0" None) (2 * k))%string, ""%string. split; [rewrite sapp_nil_end; apply zeros_text|]. split; [apply zeros_legal|]. split; [reflexivity|].
  induction k as [|k IH]; [reflexivity|]. replace (2 * S k) with (S (S (2 * k))) by lia. cbn [repeat map flat_map]. rewrite map_app, IH. cbn [app map p1]. unfold num_value at 1 2.
  change (match n_sign (snd (" "%string, num NoSign "0" None)) with Minus => "-"%string | _ => ""%string end ++ unsigned_text (snd (" "%string, num NoSign "0" None)))%string with "0"%string. rewrite Hv. reflexivity.
Qed.
Theorem leftovers_drawn k m fuel mode : 2 <= k ->
  exists s log, parse (E := E) (S fuel) mode (flat_map tokens (leftovers (S k) m)) TermEOF = PSvg s None log /\ S m * S k <= svg_ops s.
Proof.
  intros Hk. set (c0 := cursor0 (E := E) mode).
  assert (S0 : exists c1 st, stepToken (S fuel) (TStart "svg" []) c0 = (c1, Ret tt) /\ c_stack c1 = [st; st] /\ pc_path (c_pc c1) = [] /\ c_inDefs c1 = false /\ c_inMask c1 = false
    /\ ops_of c1 = 0 /\ sees c1 (fun _ => None)).
  { eexists. exists (defaultStyle (E := E)). split.
    - cbn [stepToken]. erewrite bind_step by (apply push_nil; reflexivity). unfold readStartElement. erewrite bind_step by (unfold gets; reflexivity). cbn [c_inDefs c_set_stack c0 cursor0 andb].
      change (drawFuncs (S fuel) "svg") with (Some (svgF (E := E))). cbv beta iota. reflexivity.
    - repeat split. }
  destruct S0 as (c1 & st & K1 & St1 & Pa1 & D1 & M1 & O1 & Se1). destruct (zeros_spell (S k)) as (z & Hz). cbn [repeat] in Hz.
  set (attrs := [mkAttr "points" (zeros (2 * S k))]%string).
  assert (Ha : attrs_decls attrs []) by (unfold attrs; skips).
  destruct (pushStyle_decls Hn (sv_viewBox (c_svg c1)) (fun _ => None) st attrs [] st c1 [st] Ha (decls_nil _ _ _ _ _) eq_refl Se1 St1) as (ps & Hps).
  set (c2 := c_set_stack [st; st; st] (c_set_pc (set_points ps (c_pc c1)) c1)) in *.
  assert (K2 : exists c3, mapM (stepToken (S fuel)) [TStart "polyline" attrs; TEnd "polyline"] c1 = (c3, Ret tt) /\ ready k c3 /\ ops_of c3 = S k).
  { eexists. split.
    - cbn [mapM]. erewrite bind_step.
      2: { eapply drawn_elem with (st := st) (rest := [st; st]); [exact Hps|reflexivity|exact D1|exact M1|reflexivity|eapply (polyline_run attrs _ (z, z) (repeat (z, z) k)); [exact Pa1|exists [], []; repeat split|exact Hz|rewrite repeat_length; exact Hk]|reflexivity]. }
      reflexivity.
    - split; [|unfold ops_of in *; cbn -[path_ops]; rewrite path_ops_app, O1; cbn; rewrite map_length, repeat_length; lia].
      exists st, [st], (z, z), (repeat (z, z) k). repeat split; auto. apply repeat_length. }
  destruct K2 as (c3 & K2 & R3 & O3). destruct (agains fuel k m c3 R3) as (c4 & K4 & (st4 & rest4 & _ & _ & St4 & _) & O4).
  exists (c_svg c4), (pc_log (c_pc c4)).
  assert (K : mapM (stepToken (S fuel)) (flat_map tokens (leftovers (S k) m)) c0 = (c_set_stack rest4 c4, Ret tt)).
  { assert (El : flat_map tokens (leftovers (S k) m) = [TStart "svg" []] ++ ([TStart "polyline" attrs; TEnd "polyline"] ++ (flat_map tokens (repeat (Elem "polyline" [] []) m) ++ [TEnd "svg"]))).
    { unfold leftovers. cbn [flat_map tokens]. rewrite app_nil_r. reflexivity. }
    rewrite El, mapM_app. erewrite bind_step by (cbn [mapM]; rewrite (bind_step _ _ _ _ _ K1); reflexivity).
    rewrite mapM_app, (bind_step _ _ _ _ _ K2), mapM_app, (bind_step _ _ _ _ _ K4). cbn [mapM stepToken]. unfold endElement, popStyle, bind. rewrite St4. reflexivity. }
  unfold parse. fold c0. rewrite K. split; [reflexivity|]. unfold svg_ops. unfold ops_of in *. rewrite O4, O3. cbn [Nat.mul]. lia.
Qed.
End Stale.
Lemma zeros_len k : String.length (zeros k) = 2 * k. Proof. induction k; cbn [zeros]; [reflexivity|]. cbn [append String.length]. lia. Qed.
Lemma repeat_size m : doc_size (flat_map tokens (repeat (Elem "polyline" [] []) m)) = 18 * m.
Proof. induction m as [|m IH]; [reflexivity|]. cbn [repeat flat_map]. rewrite doc_size_app, IH. change (doc_size (tokens (Elem "polyline" [] []))) with 18. lia. Qed.
Lemma leftovers_size k m : doc_size (flat_map tokens (leftovers k m)) = 33 + 4 * k + 18 * m.
Proof.
  unfold leftovers. cbn [flat_map tokens app]. repeat first [rewrite app_nil_r|rewrite doc_size_cons|rewrite doc_size_app]. rewrite repeat_size. change (doc_size []) with 0.
  unfold token_size, attrs_size, attr_size. cbn [map a_name a_val list_sum fold_right]. rewrite zeros_len. cbn [String.length]. lia.
Qed.
Lemma leftovers_no_use k m : existsb (mentions "use") (leftovers k m) = false.
Proof. cbn. rewrite !orb_false_r. induction m; [reflexivity|]. cbn. exact IHm. Qed.
Theorem no_linear {E : Env} (Hn : name_table E) (v : F E) (Hv : parseFloat E "0" = Some v) K mode :
  exists ns fuel s log, existsb (mentions "use") ns = false /\ parse (E := E) fuel mode (flat_map tokens ns) TermEOF = PSvg s None log /\ K * doc_size (flat_map tokens ns) < svg_ops s.
Proof.
  set (k := 60 * (K + 1)). destruct (leftovers_drawn Hn v Hv k k 0 mode ltac:(unfold k; lia)) as (s & log & Hs & Hb).
  exists (leftovers (S k) k), 1, s, log. split; [apply leftovers_no_use|]. split; [exact Hs|]. rewrite leftovers_size. eapply Nat.lt_le_trans; [|exact Hb]. unfold k. nia.
Qed.
Definition zero_F64 (O : F64.Oracles) : F (F64.F64 O) := SpecFloat.S754_zero false.

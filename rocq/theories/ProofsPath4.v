(** * ProofsPath4: the result of path data does not depend on what was parsed before *)
From Coq Require Import Lia.
From Verif Require Export ProofsPath3.
Local Open Scope go_scope.

Section P4.
Context {E : Env}.
Notation F := (F E).
Notation pcur := (pcur E).
Context (L1 L2 : list string).

Definition ctlKey (k : ascii) : bool := quadKey k || cubeKey k.
(** the two cursors differ at most in the log before the start of the path, in the start of a
    subpath that is not open, and in a control point no command may refer to (unless [b]) *)
Record eqv (b : bool) (c1 c2 : pcur) : Prop := {
  e_path : pc_path c1 = pc_path c2;
  e_placeX : pc_placeX c1 = pc_placeX c2; e_placeY : pc_placeY c1 = pc_placeY c2;
  e_curX : pc_curX c1 = pc_curX c2; e_curY : pc_curY c1 = pc_curY c2;
  e_points : pc_points c1 = pc_points c2;
  e_key : pc_lastKey c1 = pc_lastKey c2;
  e_mode : pc_mode c1 = pc_mode c2;
  e_in : pc_inPath c1 = pc_inPath c2;
  e_start : pc_inPath c1 = true -> pc_startX c1 = pc_startX c2 /\ pc_startY c1 = pc_startY c2;
  e_ctl : b || ctlKey (pc_lastKey c1) = true -> pc_cntlX c1 = pc_cntlX c2 /\ pc_cntlY c1 = pc_cntlY c2;
  e_log : exists d, pc_log c1 = L1 ++ d /\ pc_log c2 = L2 ++ d }.

Notation R b := (eqv b).
Lemma eqv_weak b c1 c2 : R b c1 c2 -> R false c1 c2.
Proof. intros []; split; auto. cbn [orb]. intros H. apply e_ctl0. rewrite H. apply orb_true_r. Qed.

Ltac er := intros; match goal with H : R _ ?a ?b |- _ => destruct H end.
Ltac ers := er; split; cbn; auto; try congruence.

Definition same {A} b b' (m : M pcur A) := rel2 (R b) (R b') (R false) m m.
Lemma same_bind {A B} b b1 b2 (m : M pcur A) (k : A -> M pcur B) :
  same b b1 m -> (forall a, same b1 b2 (k a)) -> same b b2 (bind m k).
Proof. intros; eapply rel2_bind; eauto. Qed.
Lemma same_weak {A} b b' (m : M pcur A) : same b b' m -> same b false m.
Proof. intros H. eapply rel2_weaken; [exact H|auto|apply eqv_weak|auto]. Qed.
Lemma same_ret {A} b (a : A) : same b b (ret a). Proof. apply rel2_ret. Qed.
Lemma same_raise {A} b b' e : same b b' (@raise pcur A e). Proof. apply rel2_raise, eqv_weak. Qed.
Lemma same_lift {A} b (o : outcome A) : same b b (lift o). Proof. apply rel2_lift, eqv_weak. Qed.
Lemma same_pnt b i : same b b (pnt i).
Proof.
  intros c1 c2 H. unfold pnt. rewrite (e_points _ _ _ H). destruct (idx (pc_points c2) i); auto;
  eauto using eqv_weak.
Qed.
Lemma same_fxp b x y : same b b (fxp x y).
Proof. apply rel2_gets. unfold at_cur. er. congruence. Qed.
Lemma same_fxpt b i : same b b (fxpt i).
Proof. unfold fxpt. eapply same_bind; [apply same_pnt|]. intros. eapply same_bind; [apply same_pnt|]. intros. apply same_fxp. Qed.
Lemma same_points b : same b b points.
Proof. apply rel2_gets. er. congruence. Qed.
Lemma same_onPath b f : same b b (onPath f).
Proof. apply rel2_modify. ers. Qed.
Lemma same_set_place b x y : same b b (modify (set_place x y)).
Proof. apply rel2_modify. ers. Qed.
Lemma same_set_points b p : same b b (modify (set_points p)).
Proof. apply rel2_modify. ers. Qed.
Lemma same_set_cntl b x y : same b true (modify (set_cntl x y)).
Proof. apply rel2_modify. ers. Qed.
Lemma same_moveTo b i : same b b (moveTo i).
Proof.
  unfold moveTo. eapply same_bind; [apply same_pnt|]. intros. eapply same_bind; [apply same_pnt|]. intros.
  apply same_set_place.
Qed.
Lemma same_pointsToAbs b sz : same b b (pointsToAbs sz).
Proof.
  intros c1 c2 H. unfold pointsToAbs. rewrite (e_points _ _ _ H), (e_placeX _ _ _ H), (e_placeY _ _ _ H).
  destruct (abs_outer _ _ _ _ _); eauto using eqv_weak. split; auto. er; split; auto.
Qed.
Lemma same_requireSets b sz rel : same b b (requireSets sz rel).
Proof.
  unfold requireSets, hasSetsOrMore. eapply same_bind; [|intros a; destruct a; [apply same_ret|apply same_raise]].
  eapply same_bind; [apply same_points|]. intros ps. apply rel2_if; [apply same_ret|].
  eapply same_bind; [|intros; apply same_ret]. apply rel2_if; [apply same_pointsToAbs|apply same_ret].
Qed.
Lemma same_loop b fuel i step bound body : (forall i, same b b (body i)) -> same b b (loop fuel i step bound body).
Proof. intros. apply rel2_loop; auto. apply eqv_weak. Qed.
(** at least one iteration, each of which establishes [R true] *)
Lemma same_loop1 fuel i step bound body : (forall b i, same b true (body i)) -> i < bound ->
  same false true (loop (S fuel) i step bound body).
Proof.
  intros Hb Hi. cbn [loop]. destruct (Nat.ltb_spec i bound); [|lia].
  eapply same_bind; [apply Hb|]. intros _. apply same_loop. intros; apply Hb.
Qed.
Lemma same_reflectQ b : same b true reflectControlQuad.
Proof.
  apply rel2_modify. er. rewrite <- e_key0. change (is_key (pc_lastKey s) ["q"; "Q"; "T"; "t"]%char) with (quadKey (pc_lastKey s)).
  destruct (quadKey (pc_lastKey s)) eqn:Hk.
  - destruct e_ctl0 as [Hx Hy]; [unfold ctlKey; rewrite Hk; apply orb_true_r|].
    rewrite Hx, Hy, e_placeX0, e_placeY0. cbn [reflect]. split; cbn; auto.
  - rewrite e_placeX0, e_placeY0. split; cbn; auto.
Qed.
Lemma same_reflectC b : same b true reflectControlCube.
Proof.
  apply rel2_modify. er. rewrite <- e_key0. change (is_key (pc_lastKey s) ["c"; "C"; "s"; "S"]%char) with (cubeKey (pc_lastKey s)).
  destruct (cubeKey (pc_lastKey s)) eqn:Hk.
  - destruct e_ctl0 as [Hx Hy]; [unfold ctlKey; rewrite Hk, !orb_true_r; reflexivity|].
    rewrite Hx, Hy, e_placeX0, e_placeY0. cbn [reflect]. split; cbn; auto.
  - rewrite e_placeX0, e_placeY0. split; cbn; auto.
Qed.
Lemma same_set_key k : same true true (modify (set_lastKey k)).
Proof. apply rel2_modify. ers. Qed.
Lemma same_set_key0 b k : ctlKey k = false -> same b false (modify (set_lastKey k)).
Proof. intros Hk. apply rel2_modify. ers. Qed.

Ltac st := eapply same_bind; [|intros ?].
Ltac leaf := first [apply same_ret|apply same_raise|apply same_lift|apply same_pnt|apply same_fxp|apply same_fxpt
  |apply same_points|apply same_onPath|apply same_set_place|apply same_set_points|apply same_set_cntl
  |apply same_moveTo|apply same_requireSets|apply same_reflectQ|apply same_reflectC|apply same_set_key].

Lemma same_segZ b : same b false segZ.
Proof.
  unfold segZ. st; [apply same_points|]. destruct a; [|apply same_raise].
  intros c1 c2 H. unfold bind, gets, onPath, modify, ret. rewrite (e_in _ _ _ H).
  destruct (pc_inPath c2) eqn:Hi; [|split; eauto using eqv_weak].
  er. rewrite Hi in *. destruct (e_start0 e_in0) as [Hx Hy]. split; [reflexivity|].
  split; cbn; auto; try congruence.
  intros Hk. apply e_ctl0. rewrite Hk. apply orb_true_r.
Qed.
Lemma same_segM b rel l : same b b (segM rel l).
Proof.
  unfold segM. st; [leaf|]. st; [leaf|]. st; [leaf|].
  eapply rel2_bind with (R1 := fun c1 c2 => R b c1 c2 /\ pc_startX c1 = pc_startX c2 /\ pc_startY c1 = pc_startY c2).
  { apply rel2_modify. intros s t H. split; [|split; reflexivity]. destruct H; split; cbn; auto. }
  intros _. eapply rel2_bind with (R1 := R b).
  { apply rel2_modify. intros s t (H & H1 & H2). destruct H; split; cbn; auto. }
  intros _. st; [leaf|]. st; [leaf|]. st; [apply same_loop; intros; st; leaf|leaf].
Qed.
Lemma same_segL b rel l : same b b (segL rel l).
Proof. unfold segL. st; [leaf|]. st; [apply same_loop; intros; st; leaf|leaf]. Qed.
Lemma same_placeX b : same b b (gets pc_placeX). Proof. apply rel2_gets. er. auto. Qed.
Lemma same_placeY b : same b b (gets pc_placeY). Proof. apply rel2_gets. er. auto. Qed.
Lemma same_vals b v : same b b (valsToAbs v).
Proof. apply rel2_modify. er. split; cbn; auto. congruence. Qed.
Lemma same_segV b rel l : same b b (segV rel l).
Proof.
  unfold segV. st; [apply rel2_if; [st; [apply same_placeY|apply same_vals]|leaf]|].
  st; [leaf|]. st; [leaf|]. st; [apply rel2_mapM; intros; st; [apply same_placeX|]; st; leaf|].
  st; [leaf|]. apply rel2_modify. ers.
Qed.
Lemma same_segH b rel l : same b b (segH rel l).
Proof.
  unfold segH. st; [apply rel2_if; [st; [apply same_placeX|apply same_vals]|leaf]|].
  st; [leaf|]. st; [leaf|]. st; [apply rel2_mapM; intros; st; [apply same_placeY|]; st; leaf|].
  st; [leaf|]. apply rel2_modify. ers.
Qed.
Lemma same_segQ b rel l : same b true (segQ rel l).
Proof.
  unfold segQ. st; [leaf|]. st; [apply same_loop; intros; st; [leaf|]; st; leaf|].
  st; [leaf|]. st; [leaf|]. st; leaf.
Qed.
Lemma same_segC b rel l : same b true (segC rel l).
Proof.
  unfold segC. st; [leaf|]. st; [apply same_loop; intros; st; [leaf|]; st; [leaf|]; st; leaf|].
  st; [leaf|]. st; [leaf|]. st; leaf.
Qed.
Lemma same_cntl : same true true (gets (fun c => at_cur c (pc_cntlX c) (pc_cntlY c))).
Proof.
  apply rel2_gets. er. destruct e_ctl0 as [Hx Hy]; [reflexivity|]. unfold at_cur. congruence.
Qed.
Lemma same_segT k rel l : 2 <= l -> same false true (segT k rel l).
Proof.
  intros Hl. unfold segT. st; [leaf|]. destruct l as [|l']; [lia|]. apply same_loop1; [|lia].
  intros b i. st; [leaf|]. st; [apply same_cntl|]. st; [leaf|]. st; [leaf|]. st; leaf.
Qed.
Lemma same_segS k rel l : 4 <= l -> same false true (segS k rel l).
Proof.
  intros Hl. unfold segS. st; [leaf|]. destruct l as [|l']; [lia|]. apply same_loop1; [|lia].
  intros b i. st; [leaf|]. st; [apply same_cntl|]. st; [leaf|]. st; [leaf|]. st; [leaf|]. st; [leaf|].
  st; [leaf|]. st; [leaf|]. st; leaf.
Qed.
Lemma same_addPlaceAt b i : same b b (addPlaceAt i).
Proof.
  unfold addPlaceAt. st; [leaf|]. intros c1 c2 H. unfold bind, gets, lift.
  rewrite (e_points _ _ _ H), (e_placeX _ _ _ H).
  destruct (upd (pc_points c2) i (fadd E a (pc_placeX c2))) as [ps|e| |]; eauto using eqv_weak.
  assert (H1 : R b (set_points ps c1) (set_points ps c2)) by (er; split; cbn; auto).
  unfold modify. revert H1. generalize (set_points ps c1) (set_points ps c2). clear. intros c1 c2 H.
  pose proof (same_pnt b (i + 1) c1 c2 H) as Hp.
  destruct (pnt (i + 1) c1) as [t1 [v1|e1| |]], (pnt (i + 1) c2) as [t2 [v2|e2| |]]; try contradiction; auto.
  destruct Hp as [-> Hp]. rewrite (e_points _ _ _ Hp), (e_placeY _ _ _ Hp).
  destruct (upd (pc_points t2) (i + 1) _) as [ps|e| |]; eauto using eqv_weak.
  split; auto. er; split; cbn; auto.
Qed.
Lemma same_addArcFromA b i : same b b (addArcFromA i).
Proof.
  unfold addArcFromA. do 7 (st; [leaf|]). intros c1 c2 H. unfold bind, gets, lift.
  rewrite (e_points _ _ _ H), (e_placeX _ _ _ H), (e_placeY _ _ _ H), (e_curX _ _ _ H), (e_curY _ _ _ H), (e_path _ _ _ H).
  destruct (findEllipseCenter _ _ _ _ _ _ _ _ _) as [[cx cy] [ra rb]].
  destruct (upd (pc_points c2) i ra) as [ps|e| |]; eauto using eqv_weak.
  destruct (upd ps (i + 1) rb) as [ps'|e| |]; eauto using eqv_weak.
  unfold modify. destruct (addArc _ _ _ _ _ _) as [[p [lx ly]]|e| |].
  - split; auto. er; split; cbn; auto.
  - split; auto. er; split; cbn; auto. intros Hk. apply e_ctl0. rewrite Hk. apply orb_true_r.
  - er; split; cbn; auto. intros Hk. apply e_ctl0. rewrite Hk. apply orb_true_r.
  - er; split; cbn; auto. intros Hk. apply e_ctl0. rewrite Hk. apply orb_true_r.
Qed.
Lemma same_segA b rel l : same b b (segA rel l).
Proof.
  unfold segA. st; [leaf|]. apply same_loop. intros.
  st; [apply rel2_if; [apply same_addPlaceAt|leaf]|apply same_addArcFromA].
Qed.
Lemma same_segUnknown b k : same b b (segUnknown k).
Proof.
  unfold segUnknown. eapply same_bind with (b1 := b); [apply rel2_gets; er; auto|].
  intros []; try leaf. apply rel2_modify. er; split; cbn; auto.
  destruct e_log0 as (d & -> & ->). exists (d ++ [("Ignoring svg command " ++ rune_string k)%string]).
  rewrite !app_assoc. auto.
Qed.

Lemma key_size k : ctlKey k = true -> exists sz, set_size k = Some (S (S sz)).
Proof.
  unfold ctlKey, quadKey, cubeKey, is_key. intros H. apply orb_prop in H.
  destruct H as [H|H]; apply existsb_exists in H as (x & Hx & He); apply Ascii.eqb_eq in He; subst x;
    cbn in Hx; repeat (destruct Hx as [<-|Hx]; [eexists; reflexivity|]); destruct Hx.
Qed.

Lemma good_min k sz n : set_size k = Some sz -> good_count k n = true -> sz <= n.
Proof.
  intros Hk Hg. destruct sz as [|sz]; [lia|]. destruct (count_sets k sz n Hk Hg) as (m & -> & Hm). nia.
Qed.

(** one command: same outcome; after a return the cursors are equivalent again *)
Lemma same_addSeg k rest : same false false (addSeg (String k rest)).
Proof.
  intros c1 c2 H. rewrite !addSeg_eq.
  set (vs := fst (numbers rest)). 
  assert (H1 : R false (set_points vs c1) (set_points vs c2)) by (er; split; cbn; auto).
  destruct (numbers_total (E := E) rest) as [->|[e ->]]; [|auto].
  (* the switch *)
  destruct (ctlKey k) eqn:Hk.
  - destruct (key_size k Hk) as (sz & Hsz). destruct (good_count k (length vs)) eqn:Hg.
    2:{ pose proof (segSwitch_bad k _ (set_points vs c1) Hsz Hg) as B1.
        pose proof (segSwitch_bad k _ (set_points vs c2) Hsz Hg) as B2.
        cbn [pc_points set_points] in B1, B2. unfold bind. rewrite B1, B2. auto. }
    assert (Hn := good_min _ _ _ Hsz Hg).
    assert (HS : same false true (segSwitch k (length vs))).
    { assert (HK : List.In k ["q"; "Q"; "T"; "t"; "c"; "C"; "s"; "S"]%char).
      { unfold ctlKey, quadKey, cubeKey, is_key in Hk. apply orb_prop in Hk.
        destruct Hk as [Hk|Hk]; apply existsb_exists in Hk as (x & Hx & He); apply Ascii.eqb_eq in He; subst x;
          cbn in Hx |- *; tauto. }
      cbn in HK. repeat (destruct HK as [<-|HK]; [|]); try destruct HK; cbv in Hsz; injection Hsz as <-; cbn in Hn.
      - apply same_segQ. - apply same_segQ. - apply same_segT; lia. - apply same_segT; lia.
      - apply same_segC. - apply same_segC. - apply same_segS; lia. - apply same_segS; lia. }
    refine (same_bind _ _ _ _ _ HS (fun _ => _) _ _ H1). apply (same_weak _ _ _ (same_set_key k)).
  - assert (HS : same false false (segSwitch k (length vs))).
    { unfold segSwitch, eqk.
      repeat match goal with |- context [Ascii.eqb k ?x] =>
        let Hx := fresh in destruct (Ascii.eqb k x) eqn:Hx; cbn [orb];
        [apply Ascii.eqb_eq in Hx; subst k; try discriminate Hk|] end;
      first [apply same_segZ|apply same_segM|apply same_segL|apply same_segV|apply same_segH|apply same_segA
         |apply same_segUnknown]. }
    refine (same_bind _ _ _ _ _ HS (fun _ => _) _ _ H1). apply (same_set_key0 _ _ Hk).
Qed.

Lemma same_compile s : rel2 (fun c1 c2 => (pc_curX c1, pc_curY c1) = (pc_curX c2, pc_curY c2)
     /\ pc_mode c1 = pc_mode c2 /\ pc_log c1 = L1 /\ pc_log c2 = L2) (R false) (R false)
  (compilePath s) (compilePath s).
Proof.
  intros c1 c2 H0. rewrite !compilePath_segments. revert c1 c2 H0.
  refine (rel2_bind _ (R false) _ _ _ _ _ _ _ _).
  - apply rel2_modify. intros d1 d2 (Ho & H1 & H2 & H3). injection Ho as Hx Hy. split; cbn; auto; try discriminate.
    exists []. rewrite !app_nil_r. auto.
  - intros _. pose proof (segments_ne (E := E) s) as Hne.
    induction Hne as [|seg segs Hs _ IH]; cbn [mapM]; [apply same_ret|].
    destruct seg as [|k rest]; [congruence|]. eapply same_bind; [apply same_addSeg|]. intros _. exact IH.
Qed.
End P4.

(** the path, the outcome and the lines logged depend only on the string, the offset and the mode *)
Theorem compilePath_history {E : Env} s (c1 c2 : pcur E) :
  pc_curX c1 = pc_curX c2 -> pc_curY c1 = pc_curY c2 -> pc_mode c1 = pc_mode c2 ->
  snd (compilePath s c1) = snd (compilePath s c2)
  /\ pc_path (fst (compilePath s c1)) = pc_path (fst (compilePath s c2))
  /\ exists d, pc_log (fst (compilePath s c1)) = pc_log c1 ++ d /\ pc_log (fst (compilePath s c2)) = pc_log c2 ++ d.
Proof.
  intros Hx Hy Hm. pose proof (same_compile (E := E) (pc_log c1) (pc_log c2) s c1 c2) as H.
  specialize (H (conj (f_equal2 pair Hx Hy) (conj Hm (conj eq_refl eq_refl)))).
  destruct (compilePath s c1) as [t1 [[]|e| |]], (compilePath s c2) as [t2 [[]|e'| |]]; try contradiction; cbn [fst snd].
  - destruct H as [_ []]. auto.
  - destruct H as [-> []]. auto.
  - destruct H. auto.
  - destruct H. auto.
Qed.


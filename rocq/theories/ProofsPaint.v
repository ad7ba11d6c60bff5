(** * ProofsPaint: what draw2d and gg paint, for every document *)
From Coq Require Import Lia.
From Verif Require Export SpecPaint ProofsDraw.

Section Tone.
Context {E : Env}.
Lemma toColor_tone c (o : F E) : toColor c o = tone c o.
Proof. destruct c; reflexivity. Qed.
Lemma getColor_flat (p : pattern E) : flat p (getColor (Some p)).
Proof.
  destruct p as [r g b a|g]; [constructor|]. cbn [getColor].
  destruct (firstColor (gStops g)) as [c|] eqn:Hc.
  - assert (H : exists l s r, gStops g = l ++ s :: r /\ Forall (fun s => stColor s = None) l /\ stColor s = Some c).
    { revert Hc. generalize (gStops g) as l. induction l as [|s l IH]; cbn [firstColor]; [discriminate|].
      destruct (stColor s) eqn:Hs. { intros H. injection H as ->. exists [], s, l. auto. }
      intros H. destruct (IH H) as (a & b & r & -> & Ha & Hb). exists (s :: a), b, r. split; [reflexivity|]. split; [now constructor|exact Hb]. }
    destruct H as (l & s & r & H1 & H2 & H3). eapply flat_stop; eassumption.
  - apply flat_black. revert Hc. generalize (gStops g) as l. induction l as [|s l IH]; cbn [firstColor]; [constructor|].
    destruct (stColor s) eqn:Hs; [discriminate|]. intros H. constructor; auto.
Qed.
Lemma toFlat_flat (p : pattern E) (o : F E) : exists c, flat p c /\ toFlat p o = tone c o.
Proof. exists (getColor (Some p)). split; [apply getColor_flat|apply toColor_tone]. Qed.
End Tone.

Section D2.
Context {E : Env}.
Notation run := (run (d2_step (E := E))).
Lemma d2_trace (m : matrix E) rule f k p ops : forall q, run (mkD2 rule f k p (fst q) (snd q)) (flat_map (d2Op m) ops)
  = let r := trace true (moved_px m) q ops in (mkD2 rule f k p (fst r) (snd r), []).
Proof.
  destruct p as [cap join width dash off].
  induction ops as [|o ops IH]; intros [done cur]; [reflexivity|]. cbn [flat_map trace fst snd]. rewrite run_app. unfold d2Op at 1.
  destruct o as [x|x|x y|x y z|]; cbn [mapOp]; rewrite ?px_of; cbn [fst snd].
  - specialize (IH ([], Some (Some (moved_px m x), []))). cbn [fst snd] in IH. cbn. rewrite IH. reflexivity.
  - specialize (IH (done, more cur (SLine (moved_px m x)))). cbn [fst snd] in IH. cbn. rewrite IH. reflexivity.
  - specialize (IH (done, more cur (SQuad (moved_px m x) (moved_px m y)))). cbn [fst snd] in IH. cbn. rewrite IH. reflexivity.
  - specialize (IH (done, more cur (SCube (moved_px m x) (moved_px m y) (moved_px m z)))). cbn [fst snd] in IH. cbn. rewrite IH. reflexivity.
  - specialize (IH (done ++ finish true cur, None)). cbn [fst snd] in IH. cbn. rewrite IH. reflexivity.
Qed.
Lemma d2_one opt (sp : svgPath E) rule f k p q0 :
  let st := sp_style sp in let m := mMult (st_transform st) (ro_target opt) in let q := trace true (moved_px m) q0 (sp_path sp) in
  exists s' l1 l2, run (mkD2 rule f k p (fst q0) (snd q0)) (d2DrawTransformed opt sp) = (s', l1 ++ l2)
  /\ (d_done s', d_cur s') = left_over st q /\ d2_filled opt st (outline q) l1 /\ d2_stroked opt m st (outline q) l2.
Proof.
  intros st m q. unfold d2DrawTransformed. fold st. fold m. destruct p as [cap join width dash off].
  destruct (st_filler st) as [pf|] eqn:Ef; destruct (st_liner st) as [pl|] eqn:El; cbn [app].
  - destruct (toFlat_flat pf (fmul E (st_fillOpacity st) (ro_opacity opt))) as (cf & Hf & Tf). destruct (toFlat_flat pl (fmul E (st_lineOpacity st) (ro_opacity opt))) as (cl & Hl & Tl).
    do 7 (erewrite run_set by reflexivity). rewrite run_app, d2_trace. cbv zeta. fold q. rewrite Tf, Tl.
    exists (mkD2 (st_nonZero st) (tone cf (fmul E (st_fillOpacity st) (ro_opacity opt))) (tone cl (fmul E (st_lineOpacity st) (ro_opacity opt))) (d2_pens m st) [] None),
      [D2Filled (outline q) (st_nonZero st) (tone cf (fmul E (st_fillOpacity st) (ro_opacity opt)))], [D2Stroked (outline q) (d2_pens m st) (tone cl (fmul E (st_lineOpacity st) (ro_opacity opt)))].
    split; [reflexivity|]. split; [unfold left_over; rewrite Ef; reflexivity|]. split; [eapply d2f_some; eassumption|eapply d2s_some; eassumption].
  - destruct (toFlat_flat pf (fmul E (st_fillOpacity st) (ro_opacity opt))) as (cf & Hf & Tf).
    do 2 (erewrite run_set by reflexivity). rewrite run_app, d2_trace. cbv zeta. fold q. rewrite Tf.
    exists (mkD2 (st_nonZero st) (tone cf (fmul E (st_fillOpacity st) (ro_opacity opt))) k (mkD2Pens cap join width dash off) [] None),
      [D2Filled (outline q) (st_nonZero st) (tone cf (fmul E (st_fillOpacity st) (ro_opacity opt)))], [].
    split; [reflexivity|]. split; [unfold left_over; rewrite Ef; reflexivity|]. split; [eapply d2f_some; eassumption|apply d2s_none, El].
  - destruct (toFlat_flat pl (fmul E (st_lineOpacity st) (ro_opacity opt))) as (cl & Hl & Tl).
    do 5 (erewrite run_set by reflexivity). rewrite run_app, d2_trace. cbv zeta. fold q. rewrite Tl.
    exists (mkD2 rule f (tone cl (fmul E (st_lineOpacity st) (ro_opacity opt))) (d2_pens m st) [] None), [], [D2Stroked (outline q) (d2_pens m st) (tone cl (fmul E (st_lineOpacity st) (ro_opacity opt)))].
    split; [reflexivity|]. split; [unfold left_over; rewrite Ef, El; reflexivity|]. split; [apply d2f_none, Ef|eapply d2s_some; eassumption].
  - rewrite run_app, d2_trace. cbv zeta. fold q. exists (mkD2 rule f k (mkD2Pens cap join width dash off) (fst q) (snd q)), [], [].
    split; [reflexivity|]. split; [unfold left_over; rewrite Ef, El; cbn; destruct q; reflexivity|]. split; [apply d2f_none, Ef|apply d2s_none, El].
Qed.
Theorem d2_paints (s : svg E) opts s0 : d2_all (options s opts) (d_done s0, d_cur s0) (sv_paths s) (painted d2_step s0 (d2DrawSvg s opts)).
Proof.
  unfold d2DrawSvg, painted. generalize (options s opts) as opt. intros opt. revert s0.
  induction (sv_paths s) as [|sp l IH]; intros s0; [constructor|]. cbn [flat_map]. rewrite run_app. destruct s0 as [rule f k p done cur].
  destruct (d2_one opt sp rule f k p (done, cur)) as (s1 & l1 & l2 & H & Hq & H1 & H2). cbn [fst snd] in H. rewrite H.
  specialize (IH s1). destruct (run s1 _) as [s2 i2]. cbn [snd d_done d_cur] in *. rewrite <- app_assoc. econstructor; [exact H1|exact H2|]. rewrite <- Hq. exact IH.
Qed.
End D2.

Section Gg.
Context {E : Env}.
Notation run := (run (gg_step (E := E))).
Lemma gg_trace (m : matrix E) mask rule f k p ops : forall q, run (mkGg mask rule f k p (fst q) (snd q)) (flat_map (ggOp m) ops)
  = let r := trace false (moved_px m) q ops in (mkGg mask rule f k p (fst r) (snd r), []).
Proof.
  destruct p as [cap join width dash off].
  induction ops as [|o ops IH]; intros [done cur]; [reflexivity|]. cbn [flat_map trace fst snd]. rewrite run_app. unfold ggOp at 1.
  destruct o as [x|x|x y|x y z|]; cbn [mapOp]; rewrite ?px_of; cbn [fst snd].
  - specialize (IH (done ++ finish true cur, Some (Some (moved_px m x), []))). cbn [fst snd] in IH. cbn. rewrite !app_nil_r. rewrite IH. reflexivity.
  - specialize (IH (done, more cur (SLine (moved_px m x)))). cbn [fst snd] in IH. cbn. rewrite IH. reflexivity.
  - specialize (IH (done, more cur (SQuad (moved_px m x) (moved_px m y)))). cbn [fst snd] in IH. cbn. rewrite IH. reflexivity.
  - specialize (IH (done, more cur (SCube (moved_px m x) (moved_px m y) (moved_px m z)))). cbn [fst snd] in IH. cbn. rewrite IH. reflexivity.
  - specialize (IH (done ++ finish true cur, None)). cbn [fst snd] in IH. cbn. rewrite IH. reflexivity.
Qed.
Lemma ggStops_tint (o : F E) l : forall l', ggStops l o = Ret l' -> Forall2 (gg_tint o) l l'.
Proof.
  induction l as [|[sc so sp] l IH]; intros l' H; cbn in H; [injection H as <-; constructor|].
  destruct sc as [c|]; [|discriminate]. destruct (ggStops l o) as [r| | |]; try discriminate. cbn in H. injection H as <-. constructor; [|apply IH; reflexivity].
  rewrite toColor_tone. constructor.
Qed.
Lemma ggGradient_brush g (o : F E) x : ggToGradient g o = Ret x -> gg_brush (PGrad g) o (GgGrad x).
Proof.
  unfold ggToGradient. destruct (gDirection g) as [[]|] eqn:Hd.
  - destruct (ggStops (gStops g) o) as [l| | |] eqn:Hs; try discriminate. intros H. injection H as <-. apply gb_linear; [exact Hd|apply ggStops_tint, Hs].
  - destruct (ggStops (gStops g) o) as [l| | |] eqn:Hs; try discriminate. intros H. injection H as <-. apply gb_radial; [exact Hd|apply ggStops_tint, Hs].
  - destruct (gStops g) eqn:Hs; [|discriminate]. intros H. injection H as <-. apply gb_none; assumption.
Qed.
Lemma gg_one mask (sp : svgPath E) m o calls mk0 rule f k p q0 : ggDrawPath mask sp m o = Ret calls ->
  let st := sp_style sp in let q := trace false (moved_px m) q0 (sp_path sp) in let mask' := option_map (painted gg_step gg_new) mask in
  exists s' l1 l2, run (mkGg mk0 rule f k p (fst q0) (snd q0)) calls = (s', l1 ++ l2) /\ (g_done s', g_cur s') = left_over st q
  /\ gg_filled mask' o st (outline q) l1 /\ gg_stroked mask' o m st (outline q) l2.
Proof.
  intros Hcalls st q mask'. unfold ggDrawPath in Hcalls. fold st in Hcalls.
  assert (Hmask : forall r, run (mkGg mk0 rule f k p (fst q0) (snd q0)) ((match mask with Some d => [GgSetMask d] | None => [GgResetClip] end) ++ r) = run (mkGg mask' rule f k p (fst q0) (snd q0)) r).
  { intros r. subst mask'. destruct mask as [d|]; cbn [app option_map]; apply run_set; [apply gg_mask_step|destruct p; reflexivity]. }
  set (fs := match st_filler st with Some (PGrad g) => _ | Some (PPlain r g b a) => _ | None => _ end) in Hcalls.
  assert (Hfs : exists x, fs = Ret x /\ match st_filler st, x with None, None => True | Some p, Some b => gg_brush p (fmul E (st_fillOpacity st) o) b | _, _ => False end).
  { subst fs. destruct (st_filler st) as [[r1 g1 b1 a1|g]|] eqn:Ef.
    - eexists. split; [reflexivity|]. cbv beta iota; rewrite toColor_tone; constructor.
    - destruct (ggToGradient g _) as [x| | |] eqn:Hg; try discriminate. cbn in *. eexists. split; [reflexivity|]. apply ggGradient_brush, Hg.
    - exists None. auto. }
  destruct Hfs as (x & Hx & Hb). rewrite Hx in Hcalls. clear Hx fs. cbn [obind] in Hcalls. injection Hcalls as <-. rewrite Hmask. destruct p as [cap join width dash off].
  destruct (st_filler st) as [pf|] eqn:Ef; destruct x as [b|]; try contradiction; destruct (st_liner st) as [pl|] eqn:El; cbn [app].
  - destruct (toFlat_flat pl (fmul E (st_lineOpacity st) o)) as (cl & Hl & Tl).
    do 8 (erewrite run_set by reflexivity). rewrite run_app, gg_trace. cbv zeta. fold q. rewrite Tl.
    eexists _, [GgFilled mask' (outline q) (st_nonZero st) (GgSolid (tone cl (fmul E (st_lineOpacity st) o)))], [GgStroked mask' (outline q) (gg_pens m st) (GgSolid (tone cl (fmul E (st_lineOpacity st) o)))].
    split; [reflexivity|]. split; [unfold left_over; rewrite Ef; reflexivity|]. split; [eapply ggf_line; eassumption|eapply ggs_some; eassumption].
  - do 2 (erewrite run_set by reflexivity). rewrite run_app, gg_trace. cbv zeta. fold q.
    eexists _, [GgFilled mask' (outline q) (st_nonZero st) b], [].
    split; [reflexivity|]. split; [unfold left_over; rewrite Ef; reflexivity|]. split; [eapply ggf_some; eassumption|apply ggs_none, El].
  - destruct (toFlat_flat pl (fmul E (st_lineOpacity st) o)) as (cl & Hl & Tl).
    do 6 (erewrite run_set by reflexivity). rewrite run_app, gg_trace. cbv zeta. fold q. rewrite Tl.
    eexists _, [], [GgStroked mask' (outline q) (gg_pens m st) (GgSolid (tone cl (fmul E (st_lineOpacity st) o)))].
    split; [reflexivity|]. split; [unfold left_over; rewrite Ef, El; reflexivity|]. split; [apply ggf_none, Ef|eapply ggs_some; eassumption].
  - rewrite run_app, gg_trace. cbv zeta. fold q. eexists (mkGg mask' rule f k _ (fst q) (snd q)), [], [].
    split; [reflexivity|]. split; [unfold left_over; rewrite Ef, El; cbn; destruct q; reflexivity|]. split; [apply ggf_none, Ef|apply ggs_none, El].
Qed.
Lemma gg_shown (s : svg E) : forall fuel sp m o calls, ggDrawTransformed fuel s sp m o = Ret calls ->
  forall st, exists st' items, run st calls = (st', items) /\ gg_shows s m o (g_done st, g_cur st) sp (g_done st', g_cur st') items.
Proof.
  induction fuel as [|fuel IH]; intros sp m o calls H st; [discriminate|]. cbn [ggDrawTransformed] in H.
  assert (Hread : slice_read (sv_mheap s) (st_masks (sp_style sp)) = path_masks s sp) by reflexivity. rewrite Hread in H. clear Hread.
  assert (G : forall mask, ggDrawPath mask sp m o = Ret calls -> gg_masked s m sp (option_map (painted gg_step gg_new) mask) ->
    exists st' items, run st calls = (st', items) /\ gg_shows s m o (g_done st, g_cur st) sp (g_done st', g_cur st') items).
  { intros mask Hc Hm. destruct st as [mk0 rule f k p done cur]. destruct (gg_one mask sp m o calls mk0 rule f k p (done, cur) Hc) as (s' & l1 & l2 & Hr & Hq & H1 & H2).
    exists s', (l1 ++ l2). split; [exact Hr|]. rewrite Hq. cbn [g_done g_cur]. eapply gsh; eassumption. }
  destruct (path_masks s sp) as [|id0 ids0 _] eqn:Em using rev_ind.
  - cbn in H. apply (G None H). apply gm_none, Em.
  - rewrite rev_unit in H. destruct (mget id0 (sv_masks s)) as [mk|] eqn:Eg.
    + destruct (omap _ (mk_paths mk)) as [mcalls| | |] eqn:Eo; try discriminate. cbn in H. apply (G (Some mcalls) H).
      destruct (omap_ret _ _ _ Eo) as (rs & -> & Hf). clear Eo H G.
      assert (K : forall st0, exists q, gg_mask_all s m (g_done st0, g_cur st0) (mk_paths mk) q (snd (run st0 (concat rs)))).
      { induction Hf as [|q0 x l rs Hq _ IHf]; intros st0; [eexists; constructor|]. cbn [concat]. rewrite run_app.
        destruct (IH q0 m (fnum E 1) x Hq st0) as (st1 & its & -> & Hi). destruct (IHf st1) as (r & Hr).
        destruct (run st1 (concat rs)) as [st2 its2]. cbn [snd] in *. eexists. econstructor; eassumption. }
      destruct (K gg_new) as (r & Hr). eapply gm_some; [exact Em|exact Eg|exact Hr].
    + cbn in H. apply (G None H). eapply gm_missing; eassumption.
Qed.
Theorem gg_paints (s : svg E) opts fuel calls st : ggDrawSvg fuel s opts = Ret calls ->
  gg_all s (options s opts) (g_done st, g_cur st) (sv_paths s) (painted gg_step st calls).
Proof.
  intros H. unfold ggDrawSvg in H. destruct (omap_ret _ _ _ H) as (rs & -> & Hf). clear H.
  revert st. unfold painted. induction Hf as [|q x l rs Hq _ IHf]; intros st; [constructor|]. cbn [concat]. rewrite run_app.
  destruct (gg_shown s fuel q _ _ x Hq st) as (st1 & its & -> & Hi).
  specialize (IHf st1). destruct (run st1 (concat rs)) as [st2 its2]. cbn [snd] in *. econstructor; eassumption.
Qed.
End Gg.

(** ** The descriptions determine what is painted *)
Section Unique.
Context {E : Env}.
Lemma first_colour {A B} (f : A -> option B) l : forall l' a a' r r' b b', l ++ a :: r = l' ++ a' :: r' ->
  Forall (fun x => f x = None) l -> Forall (fun x => f x = None) l' -> f a = Some b -> f a' = Some b' -> b = b'.
Proof.
  induction l as [|x l IH]; intros [|x' l'] a a' r r' b b' H H1 H2 Ha Ha'; cbn in H; injection H as -> H.
  - congruence.
  - inversion H2. congruence.
  - inversion H1. congruence.
  - inversion H1. inversion H2. eauto.
Qed.
Lemma flat_unique (p : pattern E) c c' : flat p c -> flat p c' -> c = c'.
Proof.
  intros H1 H2. destruct H1 as [r g b a|g l s c r Hs Hl Hc|g Hn]; inversion H2 as [r' g' b' a'|g' l' s' c'' r' Hs' Hl' Hc'|g' Hn']; subst; try reflexivity.
  - rewrite Hs in Hs'. eapply first_colour; eassumption.
  - rewrite Hs in Hn'. apply Forall_app in Hn' as [_ Hn']. inversion Hn'. congruence.
  - rewrite Hs' in Hn. apply Forall_app in Hn as [_ Hn]. inversion Hn. congruence.
Qed.
Ltac paints := repeat match goal with
  | A : ?x = Some _, B : ?x = None |- _ => rewrite A in B; discriminate
  | A : ?x = Some ?a, B : ?x = Some ?b |- _ => rewrite A in B; injection B as <-
  | A : flat ?p _, B : flat ?p _ |- _ => pose proof (flat_unique _ _ _ A B); clear B; subst
  end.
Lemma d2_filled_unique opt (st : style E) area l l' : d2_filled opt st area l -> d2_filled opt st area l' -> l = l'.
Proof. intros H1 H2. inversion H1; inversion H2; subst; paints; reflexivity. Qed.
Lemma d2_stroked_unique opt m (st : style E) area l l' : d2_stroked opt m st area l -> d2_stroked opt m st area l' -> l = l'.
Proof. intros H1 H2. inversion H1; inversion H2; subst; paints; reflexivity. Qed.
Lemma d2_all_unique opt p (sps : list (svgPath E)) l l' : d2_all opt p sps l -> d2_all opt p sps l' -> l = l'.
Proof.
  intros H1. revert l'. induction H1 as [p|p sp sps l1 l2 l st m q Ha Hb Hc IH]; intros l' H2; inversion H2; subst; [reflexivity|].
  f_equal; [eapply d2_filled_unique; eassumption|]. f_equal; [eapply d2_stroked_unique; eassumption|]. apply IH. assumption.
Qed.
Theorem d2_paints_iff (s : svg E) opts s0 items :
  painted d2_step s0 (d2DrawSvg s opts) = items <-> d2_all (options s opts) (d_done s0, d_cur s0) (sv_paths s) items.
Proof. split; [intros <-; apply d2_paints|]. intros H. eapply d2_all_unique; [apply d2_paints|exact H]. Qed.

Lemma tints_unique (o : F E) l : forall r r', Forall2 (gg_tint o) l r -> Forall2 (gg_tint o) l r' -> r = r'.
Proof.
  induction l as [|x l IH]; intros r r' H1 H2; inversion H1; inversion H2; subst; [reflexivity|].
  repeat match goal with H : gg_tint _ _ _ |- _ => inversion H; clear H; subst end. f_equal. apply IH; assumption.
Qed.
Lemma brush_unique (p : pattern E) o x x' : gg_brush p o x -> gg_brush p o x' -> x = x'.
Proof.
  intros H1 H2. inversion H1; subst; inversion H2; subst; try reflexivity; try congruence.
  - match goal with A : gDirection _ = _, B : gDirection _ = _ |- _ => rewrite A in B; injection B as <- <- <- <- end.
    match goal with A : Forall2 _ _ ?a, B : Forall2 _ _ ?b |- _ => pose proof (tints_unique _ _ _ _ A B) end. congruence.
  - match goal with A : gDirection _ = _, B : gDirection _ = _ |- _ => rewrite A in B; injection B as <- <- <- <- <- <- end.
    match goal with A : Forall2 _ _ ?a, B : Forall2 _ _ ?b |- _ => pose proof (tints_unique _ _ _ _ A B) end. congruence.
Qed.
Lemma gg_filled_unique mask o (st : style E) area l l' : gg_filled mask o st area l -> gg_filled mask o st area l' -> l = l'.
Proof.
  intros H1 H2. inversion H1; inversion H2; subst; paints; try reflexivity.
  match goal with A : gg_brush _ _ _, B : gg_brush _ _ _ |- _ => pose proof (brush_unique _ _ _ _ A B) end. congruence.
Qed.
Lemma gg_stroked_unique mask o m (st : style E) area l l' : gg_stroked mask o m st area l -> gg_stroked mask o m st area l' -> l = l'.
Proof. intros H1 H2. inversion H1; inversion H2; subst; paints; reflexivity. Qed.
End Unique.
Scheme gg_shows_mind := Induction for gg_shows Sort Prop
  with gg_masked_mind := Induction for gg_masked Sort Prop
  with gg_mask_all_mind := Induction for gg_mask_all Sort Prop.
Section UniqueGg.
Context {E : Env}.
Lemma gg_shows_unique (s : svg E) m : forall o p sp q l, gg_shows s m o p sp q l -> forall q' l', gg_shows s m o p sp q' l' -> q = q' /\ l = l'.
Proof.
  apply (gg_shows_mind E s m
    (fun o p sp q l _ => forall q' l', gg_shows s m o p sp q' l' -> q = q' /\ l = l')
    (fun sp mask _ => forall mask', gg_masked s m sp mask' -> mask = mask')
    (fun p sps q l _ => forall q' l', gg_mask_all s m p sps q' l' -> q = q' /\ l = l')).
  - intros o p sp mask l1 l2 st q Hm IH H1 H2 q' l' H. inversion H as [? ? ? mask' l1' l2' ? ? Hm' H1' H2']; subst. apply IH in Hm' as <-.
    split; [reflexivity|]. f_equal; [eapply gg_filled_unique; eassumption|eapply gg_stroked_unique; eassumption].
  - intros sp Hs mask' H. inversion H as [|? ids id Hi|? ids id mk q l Hi]; subst; [reflexivity| |]; rewrite Hs in Hi; destruct ids; discriminate.
  - intros sp ids id Hi Hg mask' H. inversion H as [|? ids' id' Hi' Hg'|? ids' id' mk q l Hi' Hg']; subst; [reflexivity..|].
    rewrite Hi in Hi'. apply app_inj_tail in Hi' as [_ <-]. congruence.
  - intros sp ids id mk q l Hi Hg Hl IH mask' H. inversion H as [? Hi'|? ids' id' Hi' Hg'|? ids' id' mk' q' l' Hi' Hg' Hl']; subst.
    + rewrite Hi in Hi'. destruct ids; discriminate.
    + rewrite Hi in Hi'. apply app_inj_tail in Hi' as [_ <-]. congruence.
    + rewrite Hi in Hi'. apply app_inj_tail in Hi' as [_ <-]. rewrite Hg in Hg'. injection Hg' as <-. apply IH in Hl' as [_ <-]. reflexivity.
  - intros p q' l' H. inversion H; subst; auto.
  - intros p sp q sps r l1 l2 H1 IH1 H2 IH2 q' l' H. inversion H as [|? ? q1 ? r1 l1' l2' H1' H2']; subst.
    apply IH1 in H1' as [<- <-]. apply IH2 in H2' as [<- <-]. auto.
Qed.
Lemma gg_all_unique (s : svg E) opt p sps l : gg_all s opt p sps l -> forall l', gg_all s opt p sps l' -> l = l'.
Proof.
  induction 1 as [p|p sp q sps l1 l2 H1 H2 IH]; intros l' H; inversion H as [|? ? q' ? l1' l2' H1' H2']; subst; [reflexivity|].
  destruct (gg_shows_unique _ _ _ _ _ _ _ H1 _ _ H1') as [<- <-]. f_equal. apply IH, H2'.
Qed.
Theorem gg_paints_iff (s : svg E) opts fuel calls st items : ggDrawSvg fuel s opts = Ret calls ->
  (painted gg_step st calls = items <-> gg_all s (options s opts) (g_done st, g_cur st) (sv_paths s) items).
Proof.
  intros Hc. split; [intros <-; eapply gg_paints, Hc|]. intros H. eapply gg_all_unique; [eapply gg_paints, Hc|exact H].
Qed.
End UniqueGg.

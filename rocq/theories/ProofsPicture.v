(** * ProofsPicture: the three renderers show the picture of the document *)
From Coq Require Import Lia.
From Verif Require Export SpecPicture ProofsPaint.

Section Map.
Context {G H : Type} (f : G -> H).
Definition open_map (c : open_sub G) : open_sub H := option_map (fun x => (option_map f (fst x), map (seg_map f) (snd x))) c.
Lemma finish_map b c : map (sub_map f) (finish b c) = finish b (open_map c).
Proof. destruct c as [[st l]|]; reflexivity. Qed.
Lemma more_map c s : open_map (more c s) = more (open_map c) (seg_map f s).
Proof. destruct c as [[st l]|]; [|reflexivity]. cbn. now rewrite map_app. Qed.
Lemma grouped_map (g : pt -> G) ops : forall c, map (sub_map f) (grouped g c ops) = grouped (fun p => f (g p)) (open_map c) ops.
Proof.
  induction ops as [|o ops IH]; intros c; [apply finish_map|]. destruct o; cbn [grouped]; rewrite ?map_app, ?IH, ?finish_map, ?more_map; reflexivity.
Qed.
End Map.

Section Rx.
Context {E : Env}.
Lemma subpaths_px (m : matrix E) ops : subpaths (moved_px m) ops = map (sub_map px) (subpaths (moved m) ops).
Proof. unfold subpaths. rewrite grouped_map. reflexivity. Qed.
Lemma rx_pens_common (m : matrix E) st : common st -> exists miter,
  rx_pens m st = mkPens (f_to_i32 E (fmul E (fmul E (st_lineWidth st) (fnum E 64)) (widen m))) miter (rx_cap_of (flat_cap (jTrailLineCap (st_join st))))
    (rx_cap_of (flat_cap (jTrailLineCap (st_join st)))) RxFlatGap (rx_join_of (flat_join (jLineJoin (st_join st)))).
Proof.
  intros (_ & _ & _ & Hc & Hl & Hg & Hj). exists (jMiterLimit (st_join st)). unfold rx_pens. rewrite Hl, Hg.
  destruct Hc as [->|[->| ->]], Hj as [->| ->]; reflexivity.
Qed.
Lemma rx_picture box opt (sps : list (svgPath E)) : forall rule, Forall (fun sp => common (sp_style sp)) sps -> rules_fine rule sps ->
  Forall2 rx_like (picture opt sps) (rx_all box opt rule sps).
Proof.
  induction sps as [|sp sps IH]; intros rule Hc Hr; [constructor|]. inversion Hc as [|? ? Hs Hc']; subst. destruct Hr as [Hr Hr'].
  unfold picture. cbn [flat_map rx_all]. apply Forall2_app; [|apply IH; assumption]. fold (rule_after rule sp) in Hr. clear IH Hr' Hc Hc'.
  set (st := sp_style sp) in *. unfold marks_of, rx_items. fold st. set (m := mMult _ _).
  rewrite subpaths_px. destruct (rx_pens_common m st Hs) as (miter & Hp). rewrite Hp. clear Hp. destruct Hs as (Hf & Hl & _). apply Forall2_app.
  - destruct (st_filler st) as [[r g b a|]|]; try contradiction; [|constructor]. destruct Hf as (_ & _ & _ & ->). repeat constructor.
  - destruct (st_liner st) as [[r g b a|]|]; try contradiction; [|constructor]. destruct Hl as (_ & _ & _ & ->). destruct Hr as [Hr|Hr]; [discriminate|]. rewrite Hr. repeat constructor.
Qed.
Theorem rx_shows_picture box (s : svg E) opts w pens q a cur : Forall (fun sp => common (sp_style sp)) (sv_paths s) -> rules_fine w (sv_paths s) ->
  Forall2 rx_like (picture (options s opts) (sv_paths s)) (painted rx_step (mkRx w pens q a cur) (rxDrawSvg (fun cs => box (rx_area cs)) s opts)).
Proof. intros H1 H2. rewrite rx_draws. now apply rx_picture. Qed.
End Rx.

Section Others.
Context {E : Env}.
Lemma tone_opaque r g b a (o : F E) : byte r /\ byte g /\ byte b /\ a = 255%Z -> tone (CNRGBA r g b a) o = (r, g, b, alpha o).
Proof.
  intros H. rewrite <- toColor_tone. pose proof (toColor_shade (CNRGBA r g b a) o H) as Hs. revert Hs. generalize (toColor (CNRGBA r g b a) o) as x. intros x Hs. inversion Hs; subst; reflexivity.
Qed.
Lemma trace_one (m : matrix E) drop ops : existsb is_move ops = false -> forall p, outline (trace drop (moved_px m) p ops) = fst p ++ grouped (moved_px m) (snd p) ops.
Proof.
  induction ops as [|o ops IH]; intros Hm p; [reflexivity|]. cbn [existsb] in Hm. apply orb_false_elim in Hm as [Ho Hm]. specialize (IH Hm).
  destruct o; try discriminate; cbn [trace grouped]; rewrite IH; cbn [fst snd]; rewrite ?app_assoc; reflexivity.
Qed.
Lemma trace_first (m : matrix E) p ops : one_move ops -> outline (trace true (moved_px m) p ops) = subpaths (moved_px m) ops.
Proof. intros (a & r & -> & Hm). cbn [trace]. rewrite trace_one by exact Hm. reflexivity. Qed.
Lemma d2_picture opt p (sps : list (svgPath E)) l : d2_all opt p sps l -> Forall (fun sp => common (sp_style sp) /\ one_move (sp_path sp)) sps ->
  Forall2 d2_like (picture opt sps) l.
Proof.
  induction 1 as [p|p sp sps l1 l2 l st m q Hf Hl _ IH]; intros Hc; [constructor|]. inversion Hc as [|? ? [Hs Hm] Hc']; subst.
  unfold picture. cbn [flat_map]. rewrite app_assoc. apply Forall2_app; [|apply IH, Hc']. subst q. rewrite trace_first in Hf, Hl by exact Hm.
  unfold marks_of. fold st. fold m. fold st in Hs. destruct Hs as (Of & Ol & Hd & _). apply Forall2_app.
  - destruct Hf as [H|pf c H Hc0]; rewrite H in *; [constructor|]. destruct pf as [r g b a|]; [|contradiction]. inversion Hc0; subst. rewrite tone_opaque by exact Of. repeat constructor.
  - destruct Hl as [H|pf c H Hc0]; rewrite H in *; [constructor|]. destruct pf as [r g b a|]; [|contradiction]. inversion Hc0; subst. rewrite tone_opaque by exact Ol. unfold d2_pens. rewrite Hd. repeat constructor.
Qed.
Theorem d2_shows_picture (s : svg E) opts s0 : Forall (fun sp => common (sp_style sp) /\ one_move (sp_path sp)) (sv_paths s) ->
  Forall2 d2_like (picture (options s opts) (sv_paths s)) (painted d2_step s0 (d2DrawSvg s opts)).
Proof. eapply d2_picture, d2_paints. Qed.

Lemma trace_closed (m : matrix E) ops : forall prev p, moves_closed prev ops = true -> (prev = true -> snd p = None) ->
  outline (trace false (moved_px m) p ops) = fst p ++ grouped (moved_px m) (snd p) ops.
Proof.
  induction ops as [|o ops IH]; intros prev p Hm Hp; [reflexivity|]. destruct o; cbn [moves_closed trace grouped] in *.
  - apply andb_prop in Hm as [-> Hm]. rewrite (IH false _ Hm) by discriminate. destruct p as [d c]. cbn [fst snd] in *. specialize (Hp eq_refl). subst c. cbn [finish app]. rewrite app_nil_r. reflexivity.
  - rewrite (IH false _ Hm) by discriminate. reflexivity.
  - rewrite (IH false _ Hm) by discriminate. reflexivity.
  - rewrite (IH false _ Hm) by discriminate. reflexivity.
  - rewrite (IH true _ Hm) by reflexivity. cbn [fst snd]. now rewrite app_assoc.
Qed.
Lemma gg_picture (s : svg E) opt p sps l : gg_all s opt p sps l -> p = ([], None) ->
  Forall (fun sp => common (sp_style sp) /\ moves_closed true (sp_path sp) = true /\ one_colour (sp_style sp) /\ path_masks s sp = []) sps ->
  Forall2 gg_like (picture opt sps) l.
Proof.
  induction 1 as [p|p sp q sps l1 l2 Hs _ IH]; intros -> Hc; [constructor|]. inversion Hc as [|? ? (H1 & H2 & H3 & H4) Hc']; subst.
  unfold picture. cbn [flat_map]. inversion Hs as [? ? ? mask l1' l2' st q0 Hm Hf Hl]; subst. apply Forall2_app.
  - clear IH Hc Hc' Hs. subst q0. assert (mask = None) as ->.
    { inversion Hm as [|? ids id Hi|? ids id mk q' l' Hi]; subst; [reflexivity| |]; rewrite H4 in Hi; destruct ids; discriminate. }
    rewrite (trace_closed _ _ true) in Hf, Hl by auto. cbn [fst snd app] in Hf, Hl. fold (subpaths (moved_px (mMult (st_transform (sp_style sp)) (ro_target opt))) (sp_path sp)) in Hf, Hl.
    unfold marks_of. subst st. set (st := sp_style sp) in *. set (m := mMult _ _) in *. destruct H1 as (Of & Ol & Hd & _ & _ & _ & Hj). unfold one_colour in H3. apply Forall2_app.
    + destruct Hf as [H|pf x H Hn Hb|pf ql c H Hq Hc0]; rewrite H in *; [constructor| |].
      * destruct pf as [r g b a|]; [|contradiction]. inversion Hb; subst. rewrite tone_opaque by exact Of. repeat constructor.
      * rewrite Hq in H3. destruct H3 as [<- <-]. destruct pf as [r g b a|]; [|contradiction]. inversion Hc0; subst. rewrite tone_opaque by exact Of. repeat constructor.
    + destruct Hl as [H|pl c H Hc0]; rewrite H in *; [constructor|]. destruct pl as [r g b a|]; [|contradiction]. inversion Hc0; subst. rewrite tone_opaque by exact Ol. unfold gg_pens. rewrite Hd.
      replace (match jLineJoin (st_join st) with Round => LjRound | _ => LjBevel end) with (flat_join (jLineJoin (st_join st))) by (destruct Hj as [->| ->]; reflexivity). repeat constructor.
  - apply IH; [|exact Hc']. unfold left_over. clear - H3. unfold one_colour in H3. subst st. destruct (st_filler _), (st_liner _); try reflexivity. contradiction.
Qed.
Theorem gg_shows_picture (s : svg E) opts fuel st : g_done st = [] -> g_cur st = None ->
  Forall (fun sp => common (sp_style sp) /\ moves_closed true (sp_path sp) = true /\ one_colour (sp_style sp) /\ path_masks s sp = []) (sv_paths s) ->
  exists calls, ggDrawSvg (S fuel) s opts = Ret calls /\ Forall2 gg_like (picture (options s opts) (sv_paths s)) (painted gg_step st calls).
Proof.
  intros Hd Hc H. assert (Hr : exists calls, ggDrawSvg (S fuel) s opts = Ret calls).
  { assert (Ho : forall sp m o, common (sp_style sp) -> path_masks s sp = [] -> exists c, ggDrawTransformed (S fuel) s sp m o = Ret c).
    { intros sp m o H1 H4. cbn [ggDrawTransformed]. assert (Hread : slice_read (sv_mheap s) (st_masks (sp_style sp)) = path_masks s sp) by reflexivity. rewrite Hread, H4. cbn [rev].
      unfold ggDrawPath. destruct H1 as (Hf & _). destruct (st_filler (sp_style sp)) as [[r g b a|]|]; try contradiction; cbn [obind]; eexists; reflexivity. }
    unfold ggDrawSvg. induction H as [|sp l (H1 & _ & _ & H4) _ [cs IH]]; [eexists; reflexivity|]. cbn [omap].
    destruct (Ho sp (mMult (st_transform (sp_style sp)) (ro_target (options s opts))) (ro_opacity (options s opts)) H1 H4) as (c & ->). rewrite IH. eexists; reflexivity. }
  destruct Hr as (calls & Hr). exists calls. split; [exact Hr|]. pose proof (gg_paints s opts (S fuel) calls st Hr) as Hp. rewrite Hd, Hc in Hp. eapply gg_picture; [exact Hp|reflexivity|exact H].
Qed.
End Others.

(** ** All three *)
Section Agree.
Context {E : Env}.
Lemma one_move_closed ops : one_move ops -> moves_closed true ops = true.
Proof.
  intros (a & r & -> & Hm). cbn. clear a. generalize false as b. induction r as [|o r IH]; intros b; [reflexivity|]. cbn [existsb] in Hm. apply orb_false_elim in Hm as [Ho Hm]. destruct o; cbn; auto. discriminate.
Qed.
Theorem agree box (s : svg E) opts pens q a cur s0 st fuel : g_done st = [] -> g_cur st = None ->
  Forall (agreeable s) (sv_paths s) -> rules_fine true (sv_paths s) ->
  let marks := picture (options s opts) (sv_paths s) in
  Forall2 rx_like marks (painted rx_step (mkRx true pens q a cur) (rxDrawSvg (fun cs => box (rx_area cs)) s opts))
  /\ Forall2 d2_like marks (painted d2_step s0 (d2DrawSvg s opts))
  /\ exists calls, ggDrawSvg (S fuel) s opts = Ret calls /\ Forall2 gg_like marks (painted gg_step st calls).
Proof.
  intros Hd Hc H Hr marks. split; [|split].
  - apply rx_shows_picture; [|exact Hr]. eapply Forall_impl; [|exact H]. intros sp (H1 & _). exact H1.
  - apply d2_shows_picture. eapply Forall_impl; [|exact H]. intros sp (H1 & H2 & _). auto.
  - apply gg_shows_picture; [exact Hd|exact Hc|]. eapply Forall_impl; [|exact H]. intros sp (H1 & H2 & H3 & H4). auto using one_move_closed.
Qed.
End Agree.

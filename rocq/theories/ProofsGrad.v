(** * ProofsGrad: every gradient in a stored style is complete (C30) *)
From Coq Require Import Lia.
From Verif Require Export Triples SpecSafe.
Local Open Scope go_scope.

Section Grad.
Context {E : Env}.
Notation cursor := (cursor E).
Definition has_dir (g : gradient E) : Prop := gDirection g <> None.
Definition path_ok (p : svgPath E) : Prop := complete_style (sp_style p).
Definition mask_ok (m : svgMask E) : Prop := Forall path_ok (mk_paths m).
Record stored (c : cursor) : Prop := mkStored {
  s_paths : Forall path_ok (sv_paths (c_svg c));
  s_masks : Forall (fun e => mask_ok (snd e)) (sv_masks (c_svg c));
  s_mask : forall m, c_mask c = Some m -> mask_ok m }.
Record settled (c : cursor) : Prop := mkSettled {
  s_stored : stored c;
  s_stack : Forall complete_style (c_stack c) }.
Record whole (c : cursor) : Prop := mkWhole {
  w_settled : settled c;
  w_heap : Forall has_dir (c_gheap c) }.
Definition bad (o : outcome unit) (c : cursor) : Prop := settled c.
Notation inv m := (tri whole m (fun _ => whole) bad).

Lemma whole_bad o c : whole c -> bad o c. Proof. intros []; assumption. Qed.
Lemma set_nth_forall {A} (Q : A -> Prop) (a : A) : Q a -> forall l i, Forall Q l -> Forall Q (set_nth l i a).
Proof. intros Ha. induction l as [|b l IH]; intros i H; [constructor|]. inversion H; subst. destruct i; cbn; auto. Qed.
Lemma mput_forall {A} (Q : A -> Prop) k (v : A) : Q v -> forall m, Forall (fun e => Q (snd e)) m -> Forall (fun e => Q (snd e)) (mput k v m).
Proof.
  intros Hv m H. unfold mput. constructor; [exact Hv|]. rewrite Forall_forall in H |- *. intros e He. apply H. apply filter_In in He. apply He.
Qed.
Lemma mget_forall {A} (Q : A -> Prop) k (v : A) m : Forall (fun e => Q (snd e)) m -> mget k m = Some v -> Q v.
Proof. induction m as [|[k' x] m IH]; intros H; cbn; [discriminate|]. inversion H; subst. destruct (String.eqb k k'); [intros Heq; injection Heq as <-; assumption|auto]. Qed.

(** what only touches other parts keeps it *)
Definition same_art (c c' : cursor) : Prop :=
  sv_paths (c_svg c') = sv_paths (c_svg c) /\ sv_masks (c_svg c') = sv_masks (c_svg c) /\ c_mask c' = c_mask c
  /\ c_stack c' = c_stack c /\ c_gheap c' = c_gheap c.
Lemma sa_refl c : same_art c c. Proof. unfold same_art. auto. Qed.
Lemma sa_trans a b c : same_art a b -> same_art b c -> same_art a c.
Proof. unfold same_art. intuition congruence. Qed.
Lemma sa_whole c c' : same_art c c' -> whole c -> whole c'.
Proof.
  intros (H1 & H2 & H3 & H4 & H5) [[[W1 W2 W3] W4] W5]. constructor; [constructor; [constructor|]|]; rewrite ?H1, ?H2, ?H4, ?H5; auto.
  rewrite H3. exact W3.
Qed.
Lemma sa_inv {A} (m : @C E A) : keeps same_art m -> tri whole m (fun _ => whole) bad.
Proof.
  intros H. eapply tri_weaken; [exact (tri_keeps same_art m whole H sa_whole)|auto|auto|]. intros o s. apply whole_bad.
Qed.
Lemma sa_pc p c : same_art c (c_set_pc p c). Proof. unfold same_art. auto. Qed.
Lemma sa_heap h c : same_art c (c_set_svg (sv_set_mheap h (c_svg c)) c). Proof. unfold same_art. auto. Qed.
Lemma sa_lift {A} (m : M (pcur E) A) : keeps same_art (liftP m). Proof. apply (kp_liftP _ sa_pc). Qed.

(** ** Colours of stops without one *)
Lemma localize_complete g d : has_dir g -> complete_gradient (localizeGrad g d).
Proof.
  intros Hd. unfold localizeGrad. destruct (existsb _ (gStops g)) eqn:Hx.
  - split; [exact Hd|]. cbn. apply Forall_map, Forall_forall. intros s _. destruct (stColor s) eqn:Hs; cbn; congruence.
  - split; [exact Hd|]. apply Forall_forall. intros s Hs Hn. rewrite <- not_true_iff_false in Hx. apply Hx, existsb_exists.
    exists s. split; [exact Hs|]. now rewrite Hn.
Qed.
Lemma tri_gradURL v d : tri whole (readGradURL v d)
  (fun o c => whole c /\ match o with Some g => complete_gradient g | None => True end) bad.
Proof.
  unfold readGradURL. apply tri_if; [|apply tri_ret; auto].
  eapply tri_bind. { apply (tri_lift _ _ (fun _ => whole)); intros; [assumption|eapply whole_bad; eassumption]. }
  intros s. apply tri_if; [|apply tri_ret; auto].
  eapply tri_bind. { apply (tri_lift _ _ (fun _ => whole)); intros; [assumption|eapply whole_bad; eassumption]. }
  intros id c Hc. cbv [gets bind lift ret]. destruct (mget id (sv_grads (c_svg c))) as [p|]; [|auto].
  unfold idx. destruct (nth_error (c_gheap c) p) as [g|] eqn:Hg; [|eapply whole_bad; eassumption].
  split; [assumption|]. apply localize_complete. destruct Hc as [_ Hh]. apply nth_error_In in Hg. rewrite Forall_forall in Hh. apply Hh, Hg.
Qed.
Definition ok_style (st : style E) (c : cursor) : Prop := whole c /\ complete_style st.
Lemma color_complete col : complete_paint (asPattern (E := E) col).
Proof. destruct col as [[[[r g] b] a]|]; exact I. Qed.
Lemma tri_same {A} st (m : @C E A) : keeps same_art m -> tri (ok_style st) m (fun _ => ok_style st) bad.
Proof.
  intros H. intros s [Hs Hst]. pose proof (sa_inv m H s Hs) as K. destruct (m s) as [t [a|e| |]]; auto. split; auto.
Qed.
Ltac same_kp := repeat first
  [ apply (kp_handleError _ sa_refl sa_trans sa_pc) | apply (kp_cParseUnit _ sa_refl) | apply (kp_parseDashes _ sa_refl sa_trans)
  | apply (kp_parseTransform _ sa_refl sa_trans sa_pc) | apply (kp_appendStr _ sa_heap) | apply (keeps_lift _ sa_refl) ].
Lemma tri_readStyleAttr st k v : tri (ok_style st) (readStyleAttr st k v) ok_style bad.
Proof.
  assert (Hret : forall st', (complete_style st -> complete_style st') -> tri (ok_style st) (ret st') ok_style bad).
  { intros st' H. apply tri_ret. intros s [Hs Hst]. split; auto. }
  assert (Hsame : forall {A} (m : @C E A) f, keeps same_art m -> (forall a, complete_style st -> complete_style (f a)) ->
            tri (ok_style st) (a <- m ;; ret (f a)) ok_style bad).
  { intros A m f Hm Hf. eapply tri_bind; [apply tri_same, Hm|]. intros a. apply Hret. apply Hf. }
  unfold readStyleAttr.
  destruct (String.eqb k "fill").
  { eapply tri_bind. { eapply tri_weaken; [apply tri_and; [apply (tri_gradURL v (st_filler st))|apply (tri_same st _ (kp_readGradURL _ sa_refl sa_trans v (st_filler st)))]|..].
      - intros s Hs. split; [destruct Hs; assumption|exact Hs]. - intros a s Hs. exact Hs. - intros o s [H _]; exact H. }
    intros [g|].
    - apply tri_ret. intros s [[_ Hg] [Hs [H1 H2]]]. split; [exact Hs|]. split; [exact Hg|exact H2].
    - eapply tri_pre; [apply (Hsame _ (lift (parseSVGColor v)) (fun col => s_set_filler (asPattern col) st))|].
      + same_kp. + intros col [H1 H2]. split; [apply color_complete|exact H2]. + intros s [_ Hs]; exact Hs. }
  destruct (String.eqb k "fill-rule").
  { repeat apply tri_if; try (apply Hret; intros [H1 H2]; split; assumption).
    apply (Hsame unit (handleError _) (fun _ => st)); [same_kp|auto]. }
  destruct (String.eqb k "stroke").
  { eapply tri_bind. { eapply tri_weaken; [apply tri_and; [apply (tri_gradURL v (st_liner st))|apply (tri_same st _ (kp_readGradURL _ sa_refl sa_trans v (st_liner st)))]|..].
      - intros s Hs. split; [destruct Hs; assumption|exact Hs]. - intros a s Hs. exact Hs. - intros o s [H _]; exact H. }
    intros [g|].
    - apply tri_ret. intros s [[_ Hg] [Hs [H1 H2]]]. split; [exact Hs|]. split; [exact H1|exact Hg].
    - eapply tri_pre; [apply (Hsame _ (lift (parseSVGColor v)) (fun col => s_set_liner (asPattern col) st))|].
      + same_kp. + intros col [H1 H2]. split; [exact H1|apply color_complete]. + intros s [_ Hs]; exact Hs. }
  assert (Hcap : forall {A} (o : option A) f msg, (forall a, complete_style st -> complete_style (f a)) ->
     tri (ok_style st) (match o with Some a => ret (f a) | None => handleError msg ;; ret st end) ok_style bad).
  { intros A o f msg Hf. destruct o; [apply Hret; auto|]. apply (Hsame unit (handleError msg) (fun _ => st)); [same_kp|auto]. }
  destruct (String.eqb k "stroke-linegap"). { apply Hcap. auto. }
  destruct (String.eqb k "stroke-leadlinecap"). { apply Hcap. auto. }
  destruct (String.eqb k "stroke-linecap"). { apply Hcap. auto. }
  destruct (String.eqb k "stroke-linejoin"). { apply Hcap. auto. }
  destruct (String.eqb k "stroke-miterlimit"). { apply Hsame; [same_kp|auto]. }
  destruct (String.eqb k "stroke-width"). { apply (Hsame _ (cParseUnit v widthPercentage) (fun w => s_set_lineWidth w st)); [same_kp|auto]. }
  destruct (String.eqb k "stroke-dashoffset"). { apply (Hsame _ (cParseUnit v diagPercentage) (fun w => s_set_dashOffset w st)); [same_kp|auto]. }
  destruct (String.eqb k "stroke-dasharray").
  { apply tri_if; [|apply Hret; auto]. apply (Hsame _ (parseDashes _) (fun w => s_set_dash w st)); [same_kp|auto]. }
  destruct (String.eqb k "opacity" || String.eqb k "stroke-opacity" || String.eqb k "fill-opacity")%bool.
  { cbv zeta. eapply tri_bind; [apply tri_same; same_kp|]. intros f. apply Hret. intros H. destruct (negb _), (negb _); exact H. }
  destruct (String.eqb k "transform"). { apply (Hsame _ (parseTransform v) (fun m => s_set_transform m st)); [same_kp|auto]. }
  destruct (String.eqb k "mask"); [|apply Hret; auto].
  eapply tri_bind; [apply tri_same; same_kp|]. intros id. apply (Hsame _ (appendStr _ id) (fun sl => s_set_masks sl st)); [same_kp|auto].
Qed.
Lemma tri_stylePair st p : tri (ok_style st) (stylePair st p) ok_style bad.
Proof.
  unfold stylePair. destruct (split1 ":" p) as [|k [|v l]]; try (apply tri_ret; auto). apply tri_readStyleAttr.
Qed.
Lemma inv_pushStyle attrs : inv (pushStyle attrs).
Proof.
  unfold pushStyle. eapply (tri_bind _ _ _ ok_style).
  { intros c Hc. unfold topStyle. destruct (c_stack c) as [|st l] eqn:Hs; [eapply whole_bad, Hc|]. split; [exact Hc|].
    destruct Hc as [[_ Hst] _]. rewrite Hs in Hst. inversion Hst; assumption. }
  intros st. eapply tri_bind. { apply tri_foldM. intros st' p _. apply tri_stylePair. }
  intros st'. apply tri_modify. intros c [[[[W1 W2 W3] W4] W5] Hst].
  constructor; [constructor; [constructor|]|]; cbn; auto.
Qed.
Lemma inv_popStyle : inv popStyle.
Proof.
  intros c Hc. unfold popStyle. destruct (c_stack c) as [|st l] eqn:Hs; [eapply whole_bad, Hc|].
  destruct Hc as [[[W1 W2 W3] W4] W5]. rewrite Hs in W4. inversion W4; subst. constructor; [constructor; [constructor|]|]; cbn; auto.
Qed.

(** ** Elements *)
Lemma pco_same c c' : pc_only c c' -> same_art c c'.
Proof. intros [p ->]. apply sa_pc. Qed.
Lemma inv_keeps {A} (m : @C E A) R : keeps R m -> (forall c c', R c c' -> same_art c c') -> inv m.
Proof. intros H HR. apply sa_inv. intros c. apply HR, H. Qed.
Lemma sa_svg v w h c : same_art c (c_set_svg (sv_set_viewBox v (sv_set_width w (sv_set_height h (c_svg c)))) c).
Proof. unfold same_art. auto. Qed.
Lemma inv_svgF attrs : inv (svgF attrs).
Proof. apply sa_inv. apply (kp_svgF _ sa_refl sa_trans sa_pc sa_svg). Qed.
Lemma sa_title b l c : same_art c (c_set_svg (sv_set_titles l (c_svg c)) (c_set_inTitle b c)). Proof. unfold same_art; auto. Qed.
Lemma sa_desc b l c : same_art c (c_set_svg (sv_set_descs l (c_svg c)) (c_set_inDesc b c)). Proof. unfold same_art; auto. Qed.
Lemma sa_defs b c : same_art c (c_set_inDefs b c). Proof. unfold same_art; auto. Qed.
Lemma sa_def l d c : same_art c (c_set_curDef l (c_set_svg (sv_set_defs d (c_svg c)) c)). Proof. unfold same_art; auto. Qed.
Lemma inv_maskF attrs : inv (maskF attrs).
Proof.
  unfold maskF. eapply tri_bind. { apply sa_inv. apply (kp_foldM _ sa_refl sa_trans). intros. apply (kp_maskAttr _ sa_refl sa_trans). }
  intros [[[[id x] y] w] h]. apply tri_modify. intros c [[[W1 W2 W3] W4] W5].
  constructor; [constructor; [constructor|]|]; cbn; auto. intros m Hm. injection Hm as <-. constructor.
Qed.

(** a gradient element appends an entry without direction and completes it *)
Definition building (c : cursor) : Prop :=
  settled c /\ exists h g, c_gheap c = h ++ [g] /\ c_grad c = Some (length h) /\ Forall has_dir h.
Definition same_build (c c' : cursor) : Prop := same_art c c' /\ c_grad c' = c_grad c.
Lemma sb_refl c : same_build c c. Proof. split; [apply sa_refl|reflexivity]. Qed.
Lemma sb_trans a b c : same_build a b -> same_build b c -> same_build a c.
Proof. intros [H1 H2] [H3 H4]. split; [eapply sa_trans; eassumption|congruence]. Qed.
Lemma sb_pc p c : same_build c (c_set_pc p c). Proof. split; [apply sa_pc|reflexivity]. Qed.
Lemma sa_settled c c' : same_art c c' -> settled c -> settled c'.
Proof.
  intros (H1 & H2 & H3 & H4 & H5) [[W1 W2 W3] W4]. constructor; [constructor|]; rewrite ?H1, ?H2, ?H4; auto. rewrite H3. exact W3.
Qed.
Lemma sb_building c c' : same_build c c' -> building c -> building c'.
Proof.
  intros [H1 H2] [H3 (h & g & H4 & H5 & H6)]. split; [eapply sa_settled; eassumption|]. exists h, g. rewrite H2.
  destruct H1 as (_ & _ & _ & _ & ->). auto.
Qed.
Lemma building_bad o c : building c -> bad o c. Proof. intros [H _]. exact H. Qed.
Lemma tri_same_build {A} (m : @C E A) : keeps same_build m -> tri building m (fun _ => building) bad.
Proof. intros H. eapply tri_weaken; [exact (tri_keeps same_build m building H sb_building)|auto|auto|]. intros o s. apply building_bad. Qed.
Lemma set_nth_last {A} (h : list A) a b : set_nth (h ++ [a]) (length h) b = h ++ [b].
Proof. induction h as [|x h IH]; cbn; [reflexivity|]. now rewrite IH. Qed.
Lemma nth_error_last {A} (h : list A) a : nth_error (h ++ [a]) (length h) = Some a.
Proof. induction h as [|x h IH]; cbn; auto. Qed.
Lemma tri_onGrad f : tri building (onGrad f) (fun _ => building) bad.
Proof.
  intros c [H1 (h & g & H2 & H3 & H4)]. unfold onGrad. rewrite H3, H2, nth_error_last, set_nth_last.
  split; [|exists h, (f g); cbn; auto]. destruct H1 as [[W1 W2 W3] W4]. constructor; [constructor|]; cbn; auto.
Qed.
Lemma tri_register id : tri building (registerGrad id) (fun _ => building) bad.
Proof.
  intros c [H1 (h & g & H2 & H3 & H4)]. unfold registerGrad. rewrite H3. split; [|exists h, g; cbn; auto].
  destruct H1 as [[W1 W2 W3] W4]. constructor; [constructor|]; cbn; auto.
Qed.
Lemma tri_gradAttr a : tri building (readGradAttr a) (fun _ => building) bad.
Proof.
  assert (Hr : tri building (ret tt) (fun _ => building) bad) by (apply tri_ret; auto).
  unfold readGradAttr. cbv zeta. repeat apply tri_if; try apply tri_onGrad; auto.
  eapply tri_bind; [apply tri_same_build, (kp_parseTransform _ sb_refl sb_trans sb_pc)|]. intros m. apply tri_onGrad.
Qed.
Lemma tri_linAttr l a : tri building (linAttr l a) (fun _ => building) bad.
Proof.
  destruct l as [[[x y] w] h]. unfold linAttr. repeat apply tri_if; try (apply tri_ret; auto).
  - eapply tri_bind; [apply tri_register|]. intros _'. apply tri_ret; auto.
  - eapply tri_bind; [apply tri_gradAttr|]. intros _'. apply tri_ret; auto.
Qed.
Lemma tri_radAttr l a : tri building (radAttr l a) (fun _ => building) bad.
Proof.
  destruct l as [[[[[x y] w] h] r] fr]. unfold radAttr. repeat apply tri_if; try (apply tri_ret; auto).
  - eapply tri_bind; [apply tri_register|]. intros _'. apply tri_ret; auto.
  - eapply tri_bind; [apply tri_gradAttr|]. intros _'. apply tri_ret; auto.
Qed.
Lemma tri_start : tri whole (modify (c_set_inGrad true) ;; newGrad) (fun _ => building) bad.
Proof.
  intros c [[[W1 W2 W3] W4] W5]. cbn. split; [constructor; [constructor|]; cbn; auto|]. cbn. eauto 6.
Qed.
Lemma tri_finish d : tri building (onGrad (g_set_direction (Some d))) (fun _ => whole) bad.
Proof.
  intros c [H1 (h & g & H2 & H3 & H4)]. unfold onGrad. rewrite H3, H2, nth_error_last, set_nth_last.
  destruct H1 as [[W1 W2 W3] W4]. constructor; [constructor; [constructor|]|]; cbn; auto.
  apply Forall_app. split; [assumption|]. constructor; [|constructor]. unfold has_dir. cbn. discriminate.
Qed.
Ltac units := repeat (eapply tri_bind; [apply tri_same_build, (keeps_lift _ sb_refl)|intros ?]).
Lemma inv_linear attrs : inv (linearGradientF attrs).
Proof.
  unfold linearGradientF. intros c Hc. pose proof (tri_start c Hc) as K. unfold bind at 1 2. unfold bind in K.
  destruct (modify (c_set_inGrad true) c) as [c1 [[]|e| |]]; try exact K. destruct (newGrad c1) as [c2 [[]|e| |]]; try exact K.
  revert c2 K. change (tri building (x <- foldM linAttr ("0%", "0%", "100%", "0")%string attrs ;;
    (let '(x1, y1, x2, y2) := x in g <- theGrad ;;
     (let bbox := gradBox g in
      d0 <- lift (resolveUnit bbox x1 widthPercentage) ;; d1 <- lift (resolveUnit bbox y1 heightPercentage) ;;
      d2 <- lift (resolveUnit bbox x2 widthPercentage) ;; d3 <- lift (resolveUnit bbox y2 heightPercentage) ;;
      onGrad (g_set_direction (Some (Linear d0 d1 d2 d3)))))) (fun _ => whole) bad).
  eapply tri_bind. { apply (tri_foldM (fun _ => building)). intros. apply tri_linAttr. }
  intros [[[x1 y1] x2] y2]. cbv zeta. eapply tri_bind; [apply tri_same_build, (kp_theGrad _ sb_refl)|]. intros g. units. apply tri_finish.
Qed.
Lemma inv_radial attrs : inv (radialGradientF attrs).
Proof.
  unfold radialGradientF. intros c Hc. pose proof (tri_start c Hc) as K. unfold bind at 1 2. unfold bind in K.
  destruct (modify (c_set_inGrad true) c) as [c1 [[]|e| |]]; try exact K. destruct (newGrad c1) as [c2 [[]|e| |]]; try exact K.
  revert c2 K. match goal with |- forall c2, building c2 -> match ?m c2 with _ => _ end => change (tri building m (fun _ => whole) bad) end.
  eapply tri_bind. { apply (tri_foldM (fun _ => building)). intros. apply tri_radAttr. }
  intros [[[[[x1 y1] x2] y2] r] fr]. cbv zeta. eapply tri_bind; [apply tri_same_build, (kp_theGrad _ sb_refl)|]. intros g. units. apply tri_finish.
Qed.
Lemma inv_stopF attrs : inv (stopF attrs).
Proof.
  unfold stopF. eapply tri_bind; [apply sa_inv, (keeps_gets _ sa_refl)|]. intros []; [|apply tri_ret; auto].
  eapply tri_bind. { apply sa_inv, (kp_foldM _ sa_refl sa_trans). intros. apply (kp_stopAttr _ sa_refl sa_trans). }
  intros s c Hc. unfold onGrad. destruct (c_grad c) as [p|]; [|eapply whole_bad, Hc].
  destruct (nth_error (c_gheap c) p) as [g|] eqn:Hg; [|eapply whole_bad, Hc]. destruct Hc as [[[W1 W2 W3] W4] W5].
  constructor; [constructor; [constructor|]|]; cbn; auto. apply set_nth_forall; [|assumption]. unfold has_dir. cbn.
  rewrite Forall_forall in W5. apply (W5 g). eapply nth_error_In, Hg.
Qed.
Lemma inv_drawFunc fuel name df attrs : drawFunc fuel name = Some df -> inv (df attrs).
Proof.
  unfold drawFunc. intros H.
  repeat match type of H with (if ?b then _ else _) = _ => destruct b; [injection H as <-|] end; try discriminate.
  - apply inv_svgF. - apply tri_ret; auto. - apply sa_inv, (kp_lineF _ sa_refl sa_trans sa_pc). - apply inv_stopF.
  - apply sa_inv, (kp_rectF _ sa_refl sa_trans sa_pc). - apply sa_inv, (kp_circleF _ sa_refl sa_trans sa_pc).
  - apply sa_inv, (kp_circleF _ sa_refl sa_trans sa_pc). - apply sa_inv, (kp_polylineF _ sa_refl sa_trans sa_pc).
  - apply sa_inv, (kp_polygonF _ sa_refl sa_trans sa_pc). - apply sa_inv, (kp_pathF _ sa_refl sa_trans sa_pc).
  - apply sa_inv, (kp_descF _ sa_desc). - apply sa_inv, (kp_defsF _ sa_defs). - apply sa_inv, (kp_titleF _ sa_title).
  - apply inv_linear. - apply inv_radial. - apply inv_maskF.
Qed.
Lemma inv_useLoop draw defs : (forall t df attrs, draw t = Some df -> inv (df attrs)) -> inv (useLoop draw defs).
Proof.
  intros Hd. induction defs as [|d defs IH]; cbn [useLoop]; [apply tri_ret; auto|].
  apply tri_if. { eapply tri_bind; [apply inv_popStyle|]. intros _'. exact IH. }
  eapply tri_bind; [apply inv_pushStyle|]. intros _'. destruct (draw (d_tag d)) as [df|] eqn:Hdr.
  - eapply tri_bind; [eapply Hd, Hdr|]. intros _''. eapply tri_bind; [|intros; exact IH]. apply tri_if; [apply inv_popStyle|apply tri_ret; auto].
  - apply sa_inv, (kp_handleError _ sa_refl sa_trans sa_pc).
Qed.
Lemma sa_bad c c' o : same_art c c' -> bad o c -> bad o c'. Proof. apply sa_settled. Qed.
Lemma inv_useF fuel : forall attrs, inv (useF fuel attrs).
Proof.
  induction fuel as [|fuel IH]; intros attrs; cbn [useF]. { apply tri_nofuel. intros s. apply whole_bad. }
  eapply tri_bind. { apply sa_inv, (kp_foldM _ sa_refl sa_trans). intros. apply (kp_useAttr _ sa_refl sa_trans). }
  intros [[href x] y]. eapply tri_bind. { apply sa_inv, keeps_modify. intros. apply sa_pc. } intros _'.
  eapply (tri_deferred _ _ _ (fun _ => whole) _ bad).
  - apply tri_if; [apply tri_raise; intros; eapply whole_bad; eassumption|]. apply tri_if; [apply tri_raise; intros; eapply whole_bad; eassumption|].
    eapply tri_bind; [apply sa_inv, (keeps_lift _ sa_refl)|]. intros id. eapply tri_bind; [apply sa_inv, (keeps_gets _ sa_refl)|]. intros defs.
    destruct (mget id defs); [|apply tri_raise; intros; eapply whole_bad; eassumption].
    apply inv_useLoop. intros t df at' Hdf. destruct (String.eqb t "use"); [injection Hdf as <-; apply IH|]. eapply inv_drawFunc, Hdf.
  - intros _'' s. apply sa_whole, sa_pc.
  - intros o s. apply sa_bad, sa_pc.
Qed.
Lemma inv_drawFuncs fuel name df attrs : drawFuncs fuel name = Some df -> inv (df attrs).
Proof.
  unfold drawFuncs. destruct (String.eqb name "use"); intros H; [injection H as <-; apply inv_useF|eapply inv_drawFunc, H].
Qed.
Lemma collect_settled : tri settled collectPath (fun _ => settled) bad.
Proof.
  intros c Hc. unfold collectPath, bind, gets. destruct (pc_path (c_pc c)) as [|o p] eqn:Hp; [exact Hc|].
  pose proof Hc as Hc0. destruct Hc as [[W1 W2 W3] W4]. unfold topStyle, ret, modify, onSvg, onCPath, liftP, onPath.
  destruct (c_inMask c).
  - destruct (c_mask c) as [m|] eqn:Hm.
    + destruct (c_stack c) as [|st l] eqn:Hs; [exact Hc0|]. inversion W4; subst. constructor; [constructor|]; cbn; auto; [|rewrite Hs; auto].
      intros m' Hm'. injection Hm' as <-. unfold mask_ok. cbn. apply Forall_app. split; [apply W3; reflexivity|]. constructor; [assumption|constructor].
    + constructor; [constructor|]; cbn; auto. rewrite Hm. discriminate.
  - destruct (c_stack c) as [|st l] eqn:Hs; [exact Hc0|]. inversion W4; subst. constructor; [constructor|]; cbn; auto; [|rewrite Hs; auto].
    apply Forall_app. split; [assumption|]. constructor; [assumption|constructor].
Qed.
Lemma collect_heap (c : cursor) : c_gheap (fst (collectPath c)) = c_gheap c.
Proof.
  unfold collectPath, bind, gets. destruct (pc_path (c_pc c)) as [|o p]; [reflexivity|]. unfold topStyle, ret, modify, onSvg, onCPath, liftP, onPath.
  destruct (c_inMask c); [destruct (c_mask c); [destruct (c_stack c)|]|destruct (c_stack c)]; reflexivity.
Qed.
Lemma inv_collect : inv collectPath.
Proof.
  intros c [Hc Hh]. pose proof (collect_settled c Hc) as K. pose proof (collect_heap c) as Hg. destruct (collectPath c) as [c' [a|e| |]]; cbn in Hg; auto.
  constructor; [exact K|]. now rewrite Hg.
Qed.
Lemma inv_start fuel name attrs : inv (readStartElement fuel name attrs).
Proof.
  unfold readStartElement. eapply tri_bind; [apply sa_inv, (keeps_gets _ sa_refl)|]. intros c0. cbv zeta. apply tri_if.
  - eapply (tri_bind _ _ _ (fun _ => whole)); [apply tri_if; [|apply tri_ret; auto]; apply sa_inv, (kp_flushDefs _ sa_refl sa_def)|]. intros _'. apply sa_inv, (kp_addDef _ sa_def).
  - destruct (drawFuncs fuel name) as [df|] eqn:Hdf; [|apply sa_inv, (kp_handleError _ sa_refl sa_trans sa_pc)].
    eapply tri_bind; [apply tri_attempt; eapply inv_drawFuncs, Hdf|]. intros [e|].
    + eapply tri_bind; [apply collect_settled|]. intros _'. apply tri_raise. auto.
    + eapply tri_bind; [apply inv_collect|]. intros _'. apply tri_ret. auto.
Qed.
Lemma inv_endRest name : inv (endRest name).
Proof.
  unfold endRest. repeat apply tri_if; try (apply tri_ret; auto).
  - eapply tri_bind; [apply sa_inv, (keeps_gets _ sa_refl)|]. intros b. apply tri_if; [apply sa_inv, (kp_addDef _ sa_def)|apply tri_ret; auto].
  - intros c [[[W1 W2 W3] W4] W5]. cbv [bind gets ret modify onSvg]. destruct (c_mask c) as [m|] eqn:Hm.
    + constructor; [constructor; [constructor|]|]; cbn; auto; [|discriminate]. apply mput_forall; [apply W3; reflexivity|assumption].
    + constructor; [constructor; [constructor|]|]; cbn; auto. rewrite Hm. discriminate.
  - apply sa_inv, keeps_modify. intros; unfold same_art; auto.
  - apply sa_inv, keeps_modify. intros; unfold same_art; auto.
  - eapply tri_bind; [apply sa_inv, (kp_flushDefs _ sa_refl sa_def)|]. intros _'. apply sa_inv, keeps_modify. intros; unfold same_art; auto.
  - apply sa_inv, keeps_modify. intros; unfold same_art; auto.
Qed.
Lemma inv_step fuel t : inv (stepToken fuel t).
Proof.
  destruct t as [name attrs|name|s|]; cbn [stepToken].
  - eapply tri_bind; [apply inv_pushStyle|]. intros _'. apply inv_start.
  - rewrite endElement_rest. eapply tri_bind; [apply inv_popStyle|]. intros _'. apply inv_endRest.
  - apply sa_inv, (kp_charData _ sa_refl sa_trans sa_title sa_desc).
  - apply tri_ret; auto.
Qed.
Lemma whole_start mode : whole (cursor0 mode).
Proof.
  constructor; [constructor; [constructor|]|]; cbn; auto; [discriminate|]. constructor; [|constructor]. split; exact I.
Qed.
Lemma parse_stored fuel mode toks tm s err log : parse fuel mode toks tm = PSvg s err log ->
  Forall path_ok (sv_paths s) /\ Forall (fun e => mask_ok (snd e)) (sv_masks s).
Proof.
  pose proof (tri_mapM whole (stepToken fuel) toks bad (fun t _ => inv_step fuel t) (cursor0 mode) (whole_start mode)) as K.
  unfold parse. destruct (mapM (stepToken fuel) toks (cursor0 mode)) as [c [a|e| |]]; try discriminate.
  - apply whole_bad with (o := Panic) in K. destruct K as [[W1 W2 W3] W4]. destruct tm; [destruct (seenTag toks)|]; intros H; try discriminate; injection H as <- <- <-; auto.
  - destruct K as [[W1 W2 W3] W4]. intros H; injection H as <- <- <-; auto.
Qed.
Theorem gradients_complete fuel mode toks tm (s : svg E) err log p :
  parse fuel mode toks tm = PSvg s err log -> has_path s p -> complete_style (sp_style p).
Proof.
  intros H Hp. destruct (parse_stored _ _ _ _ _ _ _ H) as [H1 H2]. rewrite Forall_forall in H1. destruct Hp as [Hp|(id & m & Hm & Hp)].
  - apply H1, Hp.
  - pose proof (mget_forall mask_ok id m _ H2 Hm) as Hk. unfold mask_ok in Hk. rewrite Forall_forall in Hk. apply Hk, Hp.
Qed.
End Grad.

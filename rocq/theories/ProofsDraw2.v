(** * ProofsDraw2: options, and drawing parsed documents *)
From Coq Require Import Lia.
From Verif Require Export ProofsDraw ProofsGrad.
Local Open Scope go_scope.

Section Options.
Context {E : Env} (s : svg E).
Definition zero_matrix : matrix E := mkM (fnum E 0) (fnum E 0) (fnum E 0) (fnum E 0) (fnum E 0) (fnum E 0).
Lemma options_last opts :
  ro_opacity (options s opts) = match last_opacity opts with Some o => o | None => fnum E 1 end
  /\ ro_target (options s opts) = match last_target opts with
       | Some (x, y, w, h) => mScale (mTranslate identity (fsub E x (bX (sv_viewBox s))) (fsub E y (bY (sv_viewBox s))))
                                (fdiv E w (bW (sv_viewBox s))) (fdiv E h (bH (sv_viewBox s)))
       | None => zero_matrix
       end.
Proof.
  unfold options. rewrite <- fold_left_rev_right. unfold last_opacity, last_target. rewrite <- !fold_left_rev_right.
  induction (rev opts) as [|o l [IH1 IH2]]; [split; reflexivity|]. cbn [fold_right]. destruct o; cbn [applyOption ro_opacity ro_target]; split; auto.
Qed.
End Options.

Lemma gg_unfold {E : Env} (s : svg E) f sp m o : ggDrawTransformed (S f) s sp m o =
  mask <~ (match rev (path_masks s sp) with
           | [] => Ret None
           | id :: _ => match mget id (sv_masks s) with
                        | None => Ret None
                        | Some mk => calls <~ omap (fun q => ggDrawTransformed f s q m (fnum E 1)) (mk_paths mk) ;; Ret (Some calls)
                        end
           end) ;; ggDrawPath mask sp m o.
Proof. reflexivity. Qed.
Section Safe.
Context {E : Env} (s : svg E).
Lemma ggStops_calm (o : F E) l : Forall (fun x => stColor x <> None) l -> exists r, ggStops l o = Ret r.
Proof. induction 1 as [|[c ? ?] l Hc _ [r Hr]]; [eexists; reflexivity|]. destruct c as [c|]; [|now destruct Hc]. cbn. rewrite Hr. eexists; reflexivity. Qed.
Lemma ggDrawPath_ret mask (sp : svgPath E) m o : complete_style (sp_style sp) -> exists calls, ggDrawPath mask sp m o = Ret calls.
Proof.
  intros [Hf _]. unfold ggDrawPath. destruct (st_filler (sp_style sp)) as [[r g b a|g]|]; try (eexists; reflexivity).
  destruct Hf as [Hd Hs]. destruct (ggStops_calm (fmul E (st_fillOpacity (sp_style sp)) o) _ Hs) as [r Hr]. unfold ggToGradient. destruct (gDirection g) as [[]|]; [| |congruence]; rewrite Hr; eexists; reflexivity.
Qed.
Lemma omap_cases {A B} (f : A -> outcome (list B)) l : (forall a, List.In a l -> (exists x, f a = Ret x) \/ f a = NoFuel) ->
  (exists r, omap f l = Ret r) \/ (omap f l = NoFuel /\ exists a, List.In a l /\ f a = NoFuel).
Proof.
  induction l as [|a l IH]; intros H; [left; eexists; reflexivity|]. cbn.
  destruct (H a (or_introl eq_refl)) as [[x Hx]|Hx]; rewrite Hx; cbn; [|right; split; [reflexivity|]; exists a; auto using in_eq].
  destruct IH as [[r Hr]|[Hr (b & Hb & Hn)]]; [intros b Hb; apply H; now right|left|right]; rewrite Hr; cbn; [eexists; reflexivity|]. split; [reflexivity|]. exists b. auto using in_cons.
Qed.
(** chains of masks, starting with the last mask of a path *)
Inductive mchain : string -> list string -> Prop :=
| mc_nil a : mchain a []
| mc_cons a b l : mask_ref s a b -> (exists mk, mget b (sv_masks s) = Some mk) -> mchain b l -> mchain a (b :: l).
Context (Hc : forall p, has_path s p -> complete_style (sp_style p)).
Lemma gg_outcome : forall fuel sp m o, complete_style (sp_style sp) ->
  (exists calls, ggDrawTransformed (S fuel) s sp m o = Ret calls)
  \/ (ggDrawTransformed (S fuel) s sp m o = NoFuel /\ exists ids a l mk, path_masks s sp = ids ++ [a] /\ mget a (sv_masks s) = Some mk /\ mchain a l /\ List.length l = fuel).
Proof.
  induction fuel as [|fuel IH]; intros sp m o Hs; rewrite gg_unfold;
  (destruct (path_masks s sp) as [|id ids _] eqn:Em using rev_ind; [left; apply ggDrawPath_ret, Hs|]); rewrite rev_unit;
  (destruct (mget id (sv_masks s)) as [mk|] eqn:Eg; [|left; apply ggDrawPath_ret, Hs]).
  - destruct (mk_paths mk) as [|q qs] eqn:Eq; [left; apply ggDrawPath_ret, Hs|]. right. split; [reflexivity|]. exists ids, id, [], mk. repeat split; auto. constructor.
  - destruct (omap_cases (fun q => ggDrawTransformed (S fuel) s q m (fnum E 1)) (mk_paths mk)) as [[r Hr]|[Hr (q & Hq & Hn)]].
    + intros q Hq. destruct (IH q m (fnum E 1)) as [H|[H _]]; auto. apply Hc. right. eauto.
    + left. rewrite Hr. apply ggDrawPath_ret, Hs.
    + right. rewrite Hr. split; [reflexivity|]. destruct (IH q m (fnum E 1)) as [[x H]|[_ (ids' & a & l & mk' & H1 & H2 & H3 & H4)]]; [apply Hc; right; eauto|congruence|].
      exists ids, id, (a :: l), mk. repeat split; auto; [|cbn; lia]. constructor; eauto. exists mk, q, ids'. auto.
Qed.
Lemma mchain_leads a l : mchain a l -> forall b, List.In b l -> mask_leads s a b.
Proof. induction 1 as [|a b l Hr _ _ IH]; intros c Hin; [destruct Hin|]. destruct Hin as [<-|Hin]; [now constructor|]. eapply ml_more; eauto. Qed.
Lemma mchain_nodup a l : masks_acyclic s -> mchain a l -> NoDup (a :: l).
Proof.
  intros Ha. induction 1 as [a|a b l Hr He H IH]; [repeat constructor; intros []|]. constructor; [|exact IH].
  intros Hin. apply (Ha a). apply (mchain_leads a (b :: l)); [now constructor|exact Hin].
Qed.
Lemma mget_key {V} k (m : smap V) v : mget k m = Some v -> List.In k (map fst m).
Proof. induction m as [|[k' v'] m IH]; cbn; [discriminate|]. destruct (String.eqb_spec k k') as [->|]; auto. Qed.
Lemma mchain_keys a l : mchain a l -> forall b, List.In b l -> List.In b (map fst (sv_masks s)).
Proof. induction 1 as [|a b l Hr [mk He] H IH]; intros c Hin; [destruct Hin|]. destruct Hin as [<-|Hin]; [now apply mget_key with mk|auto]. Qed.
Theorem gg_calm fuel sp m o : complete_style (sp_style sp) -> (exists calls, ggDrawTransformed fuel s sp m o = Ret calls) \/ ggDrawTransformed fuel s sp m o = NoFuel.
Proof. intros Hs. destruct fuel as [|fuel]; [now right|]. destruct (gg_outcome fuel sp m o Hs) as [H|[H _]]; auto. Qed.
Theorem gg_ends fuel sp m o : masks_acyclic s -> List.length (sv_masks s) < fuel -> complete_style (sp_style sp) -> exists calls, ggDrawTransformed fuel s sp m o = Ret calls.
Proof.
  intros Ha Hf Hs. destruct fuel as [|fuel]; [lia|]. destruct (gg_outcome fuel sp m o Hs) as [H|[_ (ids & a & l & mk & H1 & H2 & H3 & H4)]]; [exact H|exfalso].
  assert (Hl : List.length (a :: l) <= List.length (map fst (sv_masks s))).
  { apply NoDup_incl_length; [now apply mchain_nodup|]. intros b [<-|Hb]; [now apply mget_key with mk|]. now apply (mchain_keys a l). }
  rewrite map_length in Hl. cbn in Hl. lia.
Qed.
Theorem gg_draw_calm fuel opts : (exists calls, ggDrawSvg fuel s opts = Ret calls) \/ ggDrawSvg fuel s opts = NoFuel.
Proof.
  unfold ggDrawSvg. destruct (omap_cases (fun sp => ggDrawTransformed fuel s sp (mMult (st_transform (sp_style sp)) (ro_target (options s opts))) (ro_opacity (options s opts))) (sv_paths s)) as [H|[H _]]; auto.
  intros p Hp. apply gg_calm. apply Hc. now left.
Qed.
Theorem gg_draw_ends fuel opts : masks_acyclic s -> List.length (sv_masks s) < fuel -> exists calls, ggDrawSvg fuel s opts = Ret calls.
Proof.
  intros Ha Hf. unfold ggDrawSvg. destruct (omap_cases (fun sp => ggDrawTransformed fuel s sp (mMult (st_transform (sp_style sp)) (ro_target (options s opts))) (ro_opacity (options s opts))) (sv_paths s)) as [H|[H (p & Hp & Hn)]]; auto.
  - intros p Hp. left. apply gg_ends; auto. apply Hc. now left.
  - destruct (gg_ends fuel p (mMult (st_transform (sp_style p)) (ro_target (options s opts))) (ro_opacity (options s opts)) Ha Hf) as [x Hx]; [apply Hc; now left|congruence].
Qed.
End Safe.
Section Parsed.
Context {E : Env}.
Theorem gg_parsed_calm fuel mode toks tm (s : svg E) err log fuel' opts : parse fuel mode toks tm = PSvg s err log ->
  ggDrawSvg fuel' s opts <> Panic /\ (masks_acyclic s -> List.length (sv_masks s) < fuel' -> exists calls, ggDrawSvg fuel' s opts = Ret calls).
Proof.
  intros H. assert (Hc : forall p, has_path s p -> complete_style (sp_style p)) by (intros p; apply (gradients_complete _ _ _ _ _ _ _ _ H)).
  split; [|now apply gg_draw_ends]. destruct (gg_draw_calm s Hc fuel' opts) as [[x Hx]|Hx]; congruence.
Qed.
(** a mask whose first path is limited by the mask itself *)
Theorem gg_self_mask (s : svg E) id mk p ids qs : mget id (sv_masks s) = Some mk -> mk_paths mk = p :: qs -> path_masks s p = ids ++ [id] ->
  forall fuel sp m o ids', path_masks s sp = ids' ++ [id] -> ggDrawTransformed fuel s sp m o = NoFuel.
Proof.
  intros Hg Hp Hm. induction fuel as [|fuel IH]; intros sp m o ids' Hs; [reflexivity|]. cbn [ggDrawTransformed].
  assert (Hread : slice_read (sv_mheap s) (st_masks (sp_style sp)) = path_masks s sp) by reflexivity. rewrite Hread, Hs, rev_unit, Hg, Hp. cbn [omap]. rewrite (IH p m (fnum E 1) ids Hm). reflexivity.
Qed.
(** gradients handed to rasterx are complete *)
Definition rx_complete (c : rxCall E) : Prop :=
  match c with RxSetColor _ (RxGrad g _) => Forall (fun x => stColor x <> None) (rg_stops g) /\ List.length (rg_points g) = 5 | _ => True end.
Lemma rx_ops_complete t (m : matrix E) ops : Forall rx_complete (flat_map (rxOp t m) ops).
Proof. induction ops as [|o ops IH]; [constructor|]. cbn [flat_map]. apply Forall_app. split; [|exact IH]. destruct o; repeat constructor. Qed.
Lemma rx_paint_complete ext before (p : pattern E) o t : complete_paint (Some p) -> rx_complete (RxSetColor t (rxPaintOf ext before p o)).
Proof.
  destruct p as [r g b a|g]; intros Hp; [exact I|]. destruct Hp as [Hd Hs]. unfold rxPaintOf. destruct (ext before) as [[[x0 y0] x1] y1]. cbn.
  unfold toRasterxGradient, applyPathExtent. destruct g as [d st bo ma sp u]. cbn in *. destruct u, d as [[]|]; split; auto.
Qed.
Theorem rx_parsed_complete fuel mode toks tm (s : svg E) err log ext opts : parse fuel mode toks tm = PSvg s err log ->
  Forall rx_complete (rxDrawSvg ext s opts).
Proof.
  intros H. assert (Hc : forall p, List.In p (sv_paths s) -> complete_style (sp_style p)) by (intros p Hp; apply (gradients_complete _ _ _ _ _ _ _ _ H); now left).
  unfold rxDrawSvg. generalize (options s opts) as opt. intros opt. induction (sv_paths s) as [|sp l IH]; [constructor|]. cbn [flat_map]. apply Forall_app. split; [|apply IH; intros p Hp; apply Hc; now right].
  specialize (Hc sp (or_introl eq_refl)). destruct Hc as [Hf Hl]. unfold rxDrawTransformed. apply Forall_app. split.
  - destruct (st_filler (sp_style sp)) as [p|]; [|constructor]. unfold rxFill. repeat (apply Forall_app; split); try apply rx_ops_complete; try (repeat constructor).
    now apply rx_paint_complete.
  - destruct (st_liner (sp_style sp)) as [p|]; [|constructor]. unfold rxStrokeCalls. repeat (apply Forall_app; split); try apply rx_ops_complete; try (repeat constructor).
    now apply rx_paint_complete.
Qed.
End Parsed.

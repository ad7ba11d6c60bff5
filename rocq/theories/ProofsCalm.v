(** * ProofsCalm: arbitrary token streams that do not panic *)
From Coq Require Import Lia.
From Verif Require Export SpecCalm ProofsStream.
Local Open Scope go_scope.

Section Calm.
Context {E : Env} (fuel : nat) (u : bool).
Notation cursor := (cursor E).
Notation same := (ProofsEnd.same (E := E)).
Notation sa_refl := (ProofsEnd.sa_refl (E := E)). Notation sa_trans := (ProofsEnd.sa_trans (E := E)). Notation sa_pc := (ProofsEnd.sa_pc (E := E)).
Definition okc (n : bool) (d : definition) : Prop :=
  is_gradient (d_tag d) = false /\ (d_tag d = "defs"%string -> n = true) /\ harmless E (d_tag d) (d_attrs d).
Definition kept (n : bool) (c : cursor) : Prop := forall id ds, mget id (sv_defs (c_svg c)) = Some ds -> Forall (okc n) ds /\ (u = true -> level 0 ds <> None).
Definition cinv (d g n : bool) (j m : nat) (c : cursor) : Prop :=
  c_inDefs c = d /\ c_inGrad c = g /\ kept n c
  /\ (Forall (okc n) (c_curDef c) /\ (u = true -> level 0 (c_curDef c) = Some j) /\ (d = false -> c_curDef c = [])) /\ J m c.
Definition Wc (o : outcome unit) (c : cursor) : Prop := o <> Panic /\ c_stack c <> [].
Lemma same_cinv d g n j m c c' : same c c' -> cinv d g n j m c -> cinv d g n j m c'.
Proof.
  intros H (H1 & H2 & H3 & H4 & H5). pose proof (same_J m _ _ H H5) as HJ. destruct H. unfold cinv, kept. rewrite sa_defs, sa_grad, sa_store, sa_cur.
  split; [exact H1|]. split; [exact H2|]. split; [exact H3|]. split; [exact H4|exact HJ].
Qed.
Lemma cinv_stack d g n j m c : cinv d g n j m c -> c_stack c <> [].
Proof. intros (_ & _ & _ & _ & H & _). destruct (c_stack c); [cbn in H; lia|discriminate]. Qed.
Lemma cinv_grads d g n j m c : cinv d g n j m c -> grads_valid c.
Proof. intros (_ & _ & _ & _ & _ & _ & _ & H). exact H. Qed.
Lemma cinv_le d g n j m m' c : m' <= m -> cinv d g n j m c -> cinv d g n j m' c.
Proof. intros Hm (H1 & H2 & H3 & H4 & H5 & H6). split; [exact H1|]. split; [exact H2|]. split; [exact H3|]. split; [exact H4|]. split; [lia|exact H6]. Qed.
(** after a use: definitions may have started *)
Definition cinv' (d g n : bool) (j m : nat) (c : cursor) : Prop := cinv d g n j m c \/ (n = true /\ cinv true g n j m c).
Lemma same_cinv' d g n j m c c' : same c c' -> cinv' d g n j m c -> cinv' d g n j m c'.
Proof. intros H [I|[H1 I]]; [left|right; split; [exact H1|]]; eapply same_cinv; eassumption. Qed.
Lemma cinv'_stack d g n j m c : cinv' d g n j m c -> c_stack c <> [].
Proof. intros [I|[_ I]]; eapply cinv_stack; exact I. Qed.
Lemma cinv'_grads d g n j m c : cinv' d g n j m c -> grads_valid c.
Proof. intros [I|[_ I]]; eapply cinv_grads; exact I. Qed.
Lemma cinv'_le d g n j m m' c : m' <= m -> cinv' d g n j m c -> cinv' d g n j m' c.
Proof. intros H [I|[H1 I]]; [left|right; split; [exact H1|]]; eapply cinv_le; eassumption. Qed.
Lemma cinv_of d g n j m : forall c, cinv d g n j m c -> cinv' d g n j m c. Proof. intros c H. left. exact H. Qed.
(** from [cinv] to [cinv'] *)
Lemma both {A} d g g' n j m m' (f : M cursor A) :
  (forall d, tri (cinv d g n j m) f (fun _ => cinv d g' n j m') Wc) -> tri (cinv' d g n j m) f (fun _ => cinv' d g' n j m') Wc.
Proof.
  intros H c [I|[Hn I]].
  - specialize (H d c I). destruct (f c) as [t [a|e| |]]; auto. left. exact H.
  - specialize (H true c I). destruct (f c) as [t [a|e| |]]; auto. right. auto.
Qed.

Lemma tri_same {A} d g n j m (f : M cursor A) : keeps same f -> np (cinv d g n j m) f -> tri (cinv d g n j m) f (fun _ => cinv d g n j m) Wc.
Proof.
  intros Hk Hp c Hc. specialize (Hk c). specialize (Hp c Hc). pose proof (same_cinv _ _ _ _ _ _ _ Hk Hc) as H1.
  destruct (f c) as [t [a|e| |]]; cbn in *; [exact H1|(split; [congruence|eapply cinv_stack; eauto])..].
Qed.
Lemma tri_fn {A} d g n j m (f : M cursor A) : keeps same f -> fn f -> tri (cinv d g n j m) f (fun _ => cinv d g n j m) Wc.
Proof. intros H1 H2. apply tri_same; [exact H1|]. apply fn_np, H2. Qed.
Lemma calm_push name attrs d g n j m : harmless E name attrs -> tri (cinv d g n j m) (pushStyle (E := E) attrs) (fun _ => cinv d g n j (S m)) Wc.
Proof.
  intros Hh c Hc.
  assert (Hp : snd (pushStyle attrs c) <> Panic).
  { apply (np_pushStyle name attrs Hh). split; [eapply cinv_stack; eauto|eapply cinv_grads; eauto]. }
  assert (Hst : c_stack (fst (pushStyle attrs c)) <> []). { apply push_stack. eapply cinv_stack; eauto. }
  destruct (pushStyle attrs c) as [t [[]|e| |]] eqn:He; cbn in *; [|(split; [congruence|exact Hst])..].
  destruct (pushStyle_inv same sa_refl sa_trans sa_pc (ProofsEnd.sa_mheap (E := E)) _ _ _ He) as (st & c1 & H1 & ->).
  pose proof (same_cinv _ _ _ _ _ _ _ H1 Hc) as (K1 & K2 & K3 & K4 & K5 & K6).
  split; [exact K1|]. split; [exact K2|]. split; [exact K3|]. split; [exact K4|]. split; [cbn; lia|exact K6].
Qed.
Lemma calm_pop d g n j m : tri (cinv d g n j (S m)) (popStyle (E := E)) (fun _ => cinv d g n j m) Wc.
Proof.
  intros c Hc. pose proof (cinv_stack _ _ _ _ _ _ Hc) as Hs. unfold popStyle. destruct (c_stack c) as [|s r] eqn:Hst; [congruence|].
  destruct Hc as (H1 & H2 & H3 & H4 & K1 & K2). split; [exact H1|]. split; [exact H2|]. split; [exact H3|]. split; [exact H4|].
  rewrite Hst in K1. split; [cbn in *; lia|exact K2].
Qed.
Lemma calm_draw f name df attrs d g n j m : drawFunc (E := E) f name = Some df -> inert name = true ->
  tri (cinv d g n j m) (df attrs) (fun _ => cinv d g n j m) Wc.
Proof.
  intros H Hi. unfold inert in Hi. cbn [existsb] in Hi.
  destruct (String.eqb_spec name "stop"); [discriminate|]. destruct (String.eqb_spec name "linearGradient"); [discriminate|].
  destruct (String.eqb_spec name "radialGradient"); [discriminate|]. destruct (String.eqb_spec name "defs") as [->|N4]; [discriminate|].
  apply tri_same.
  - clear Hi. unfold drawFunc in H.
    repeat match type of H with (if String.eqb name ?s then _ else _) = _ => destruct (String.eqb_spec name s); [injection H as <-|] end; try congruence.
    + apply (kp_svgF _ sa_refl sa_trans sa_pc (ProofsEnd.sa_svg (E := E))). + apply (keeps_ret _ sa_refl). + apply (kp_lineF _ sa_refl sa_trans sa_pc).
    + apply (kp_rectF _ sa_refl sa_trans sa_pc). + apply (kp_circleF _ sa_refl sa_trans sa_pc). + apply (kp_circleF _ sa_refl sa_trans sa_pc).
    + apply (kp_polylineF _ sa_refl sa_trans sa_pc). + apply (kp_polygonF _ sa_refl sa_trans sa_pc). + apply (kp_pathF _ sa_refl sa_trans sa_pc).
    + intros c. constructor; try reflexivity. intros [H1 H2]. split; cbn; [exact H1|]. intros _ Hn. apply app_eq_nil in Hn as [_ Hn]. discriminate.
    + intros c. constructor; try reflexivity. intros [H1 H2]. split; cbn; [|exact H2]. intros _ Hn. apply app_eq_nil in Hn as [_ Hn]. discriminate.
    + apply (kp_maskF _ sa_refl sa_trans (ProofsEnd.sa_mask (E := E))).
  - destruct (String.eqb_spec name "rect") as [->|N5]. { injection H as <-. intros c _. apply (np_rectF f attrs c I). }
    apply fn_np. clear Hi. unfold drawFunc in H.
    repeat match type of H with (if String.eqb name ?s then _ else _) = _ => destruct (String.eqb_spec name s); [injection H as <-|] end; try congruence.
    + apply fn_svgF. + apply fn_ret. + apply fn_lineF. + apply fn_circleF. + apply fn_circleF.
    + apply fn_polylineF. + apply fn_polygonF. + apply fn_pathF. + intros c. exact I. + intros c. exact I. + apply fn_maskF.
Qed.
Lemma calm_collect d g n j m : tri (cinv d g n j m) (collectPath (E := E)) (fun _ => cinv d g n j m) Wc.
Proof.
  apply tri_same.
  - apply (kp_collectPath same sa_refl sa_trans sa_pc (ProofsEnd.sa_mask (E := E)) (ProofsEnd.sa_paths (E := E))).
  - intros c Hc. pose proof (cinv_stack _ _ _ _ _ _ Hc) as Hs. unfold collectPath, bind, gets. destruct (pc_path (c_pc c)); [discriminate|].
    unfold topStyle. destruct (c_inMask c); [destruct (c_mask c)|]; (destruct (c_stack c); [congruence|]) || idtac; discriminate.
Qed.
Lemma calm_handle s d g n j m : tri (cinv d g n j m) (handleError (E := E) s) (fun _ => cinv d g n j m) Wc.
Proof. apply tri_fn; [apply (kp_handleError same sa_refl sa_trans sa_pc)|apply fn_handleError]. Qed.

(** ** Gradients *)
Lemma cinv_ptr d n j m c : cinv d true n j m c -> exists p, c_grad c = Some p /\ p < List.length (c_gheap c).
Proof. intros (_ & H & _ & _ & _ & _ & H1 & _). auto. Qed.
Lemma calm_onGrad f d n j m : tri (cinv d true n j m) (onGrad (E := E) f) (fun _ => cinv d true n j m) Wc.
Proof.
  intros c Hc. destruct (cinv_ptr _ _ _ _ _ Hc) as (p & Hg & Hp). unfold onGrad. rewrite Hg.
  destruct (nth_error (c_gheap c) p) as [gr|] eqn:Hn; [|apply nth_error_None in Hn; lia].
  eapply same_cinv; [|exact Hc]. constructor; try reflexivity; auto. cbn. apply set_nth_length.
Qed.
Lemma calm_register id d n j m : tri (cinv d true n j m) (registerGrad (E := E) id) (fun _ => cinv d true n j m) Wc.
Proof.
  intros c Hc. destruct (cinv_ptr _ _ _ _ _ Hc) as (p & Hg & Hp). unfold registerGrad. rewrite Hg.
  destruct Hc as (H1 & H2 & H3 & H4 & K1 & K2 & K3 & K4). split; [exact H1|]. split; [exact H2|]. split; [exact H3|]. split; [exact H4|].
  split; [exact K1|]. split; [exact K2|]. split; [exact K3|].
  intros i q. cbn [c_svg c_set_svg sv_grads sv_set_grads c_gheap]. rewrite mget_put. destruct (String.eqb i id); [|apply K4].
  intros Hx. injection Hx as <-. exact Hp.
Qed.
Lemma calm_readGradAttr a d n j m : tri (cinv d true n j m) (readGradAttr (E := E) a) (fun _ => cinv d true n j m) Wc.
Proof.
  unfold readGradAttr.
  repeat (apply tri_if || apply calm_onGrad || (apply tri_ret; auto; fail)).
  eapply tri_bind; [|intros x; apply calm_onGrad].
  apply tri_same; [apply (kp_parseTransform same sa_refl sa_trans sa_pc)|]. intros c Hc. apply np_parseTransform. eapply cinv_stack; eauto.
Qed.
Lemma calm_theGrad d n j m : tri (cinv d true n j m) (theGrad (E := E)) (fun _ => cinv d true n j m) Wc.
Proof.
  intros c Hc. destruct (cinv_ptr _ _ _ _ _ Hc) as (p & Hg & Hp). unfold theGrad. rewrite Hg.
  unfold idx. destruct (nth_error (c_gheap c) p) as [gr|] eqn:Hn; [exact Hc|]. apply nth_error_None in Hn. lia.
Qed.
Lemma calm_resolve vb s p d n j m : tri (cinv d true n j m) (lift (resolveUnit (E := E) vb s p)) (fun _ => cinv d true n j m) Wc.
Proof. apply tri_fn; [apply (keeps_lift _ sa_refl)|apply fn_lift, fine_resolveUnit]. Qed.
Lemma calm_newGrad d g n j m : tri (cinv d g n j m) (modify (c_set_inGrad true) ;; newGrad (E := E)) (fun _ => cinv d true n j m) Wc.
Proof.
  intros c (H1 & H2 & H3 & H4 & K1 & K2 & K3 & K4). cbn. split; [exact H1|]. split; [reflexivity|]. split; [exact H3|]. split; [exact H4|].
  split; [exact K1|]. split; [exact K2|]. split.
  - intros _. cbn. eexists. split; [reflexivity|]. rewrite app_length. cbn. lia.
  - intros i q Hq. cbn in *. rewrite app_length. specialize (K4 _ _ Hq). lia.
Qed.
Lemma calm_linear attrs d g n j m : tri (cinv d g n j m) (linearGradientF (E := E) attrs) (fun _ => cinv d true n j m) Wc.
Proof.
  unfold linearGradientF. apply (tri_assoc _ _ (fun _ => newGrad)). eapply tri_bind; [apply calm_newGrad|]. intros [].
  eapply (tri_bind _ _ _ (fun _ => cinv d true n j m)).
  { apply (tri_foldM (fun _ => cinv d true n j m)). intros [[[x1 y1] x2] y2] a _. unfold linAttr.
    repeat (apply tri_if || (apply tri_ret; auto; fail)).
    - eapply tri_bind; [apply calm_register|]. intros []. apply tri_ret. auto.
    - eapply tri_bind; [apply calm_readGradAttr|]. intros []. apply tri_ret. auto. }
  intros [[[x1 y1] x2] y2]. eapply tri_bind; [apply calm_theGrad|]. intros gr. cbv zeta.
  repeat (eapply tri_bind; [apply calm_resolve|intros ?]). apply calm_onGrad.
Qed.
Lemma calm_radial attrs d g n j m : tri (cinv d g n j m) (radialGradientF (E := E) attrs) (fun _ => cinv d true n j m) Wc.
Proof.
  unfold radialGradientF. apply (tri_assoc _ _ (fun _ => newGrad)). eapply tri_bind; [apply calm_newGrad|]. intros [].
  eapply (tri_bind _ _ _ (fun _ => cinv d true n j m)).
  { apply (tri_foldM (fun _ => cinv d true n j m)). intros [[[[[cx cy] fx] fy] r] fr] a _. unfold radAttr.
    repeat (apply tri_if || (apply tri_ret; auto; fail)).
    - eapply tri_bind; [apply calm_register|]. intros []. apply tri_ret. auto.
    - eapply tri_bind; [apply calm_readGradAttr|]. intros []. apply tri_ret. auto. }
  intros [[[[[cx cy] fx] fy] r] fr]. cbv zeta. eapply tri_bind; [apply calm_theGrad|]. intros gr.
  repeat (eapply tri_bind; [apply calm_resolve|intros ?]). apply calm_onGrad.
Qed.
Lemma calm_stop attrs d g n j m : harmless E "stop" attrs -> tri (cinv d g n j m) (stopF (E := E) attrs) (fun _ => cinv d g n j m) Wc.
Proof.
  intros Hh. destruct g.
  2:{ intros c Hc. pose proof Hc as (_ & H2 & _). unfold stopF, bind, gets. rewrite H2. exact Hc. }
  unfold stopF. eapply (tri_bind _ _ _ (fun _ => cinv d true n j m)). { apply tri_gets. auto. } intros b. apply tri_if; [|apply tri_ret; auto].
  eapply (tri_bind _ _ _ (fun _ => cinv d true n j m)); [|intros st; apply calm_onGrad].
  apply (tri_foldM (fun _ => cinv d true n j m)). intros st a Ha. unfold stopAttr.
  apply tri_if. { eapply tri_bind; [apply tri_fn; [apply (keeps_lift _ sa_refl)|apply fn_lift, fine_readFraction]|]. intros x. apply tri_ret. auto. }
  destruct (is a "stop-color") eqn:Hn.
  - eapply (tri_bind _ _ _ (fun _ => cinv d true n j m)); [|intros x; apply tri_ret; auto].
    apply tri_same; [apply (keeps_lift _ sa_refl)|].
    intros c _ Hp. cbn [lift snd] in Hp. apply (parseSVGColor_panic E) in Hp.
    apply String.eqb_eq in Hn. destruct Hh as [_ Hs]. specialize (Hs eq_refl). unfold appendStyleAttrs in Ha.
    assert (Hfind : forall l, findStyle l <> EmptyString -> exists b, List.In b l /\ a_name b = "style"%string /\ a_val b = findStyle l).
    { clear. induction l as [|b l IH]; cbn; [congruence|]. destruct (String.eqb_spec (a_name b) "style"); intros H; [eauto|]. destruct (IH H) as (x & ? & ? & ?). eauto. }
    destruct (String.eqb_spec (findStyle attrs) "") as [H0|H0]. { exact (Hs a (a_val a) Ha (or_introl (conj Hn eq_refl)) Hp). }
    apply in_app_or in Ha as [Ha|Ha]. { exact (Hs a (a_val a) Ha (or_introl (conj Hn eq_refl)) Hp). }
    apply filter_In in Ha as [Ha _]. apply in_flat_map in Ha as (dd & Hd & Ha).
    destruct (cut1 ":" dd) as [[key val]|] eqn:Hcut; [|destruct Ha]. destruct Ha as [<-|[]]. cbn [a_name a_val] in *.
    destruct (Hfind _ H0) as (b0 & Hb & Hb1 & Hb2). rewrite <- Hb2 in Hd.
    refine (Hs b0 (trimSpace val) Hb (or_intror (conj Hb1 _)) Hp). exists dd, key, val. auto.
  - apply tri_if; [|apply tri_ret; auto].
    eapply tri_bind; [apply tri_fn; [apply (keeps_lift _ sa_refl)|apply fn_lift, fine_parseBasicFloat]|]. intros x. apply tri_ret. auto.
Qed.

(** ** Uses *)
Lemma calm_loop f d g n j m ds : Forall (okc n) ds ->
  (forall attrs m, tri (cinv' d g n j m) (useF (E := E) f attrs) (fun _ => cinv' d g n j m) Wc) ->
  forall i, level i ds <> None ->
  tri (cinv' d g n j (m + i)) (useLoop (E := E) (fun tag => if String.eqb tag "use" then Some (useF f) else drawFunc f tag) ds) (fun _ => cinv' d g n j m) Wc.
Proof.
  intros Hds Huse. induction Hds as [|def ds (O1 & O2 & O3) Hds IH]; intros i Hi; cbn [useLoop].
  - apply tri_ret. intros c. apply cinv'_le. lia.
  - cbn [level] in Hi. destruct (String.eqb_spec (d_tag def) "endg") as [He|He].
    + destruct i as [|i]; [congruence|]. replace (m + S i) with (S (m + i)) by lia.
      eapply tri_bind; [apply both; intros; apply calm_pop|]. intros []. apply IH. exact Hi.
    + eapply tri_bind; [apply both; intros; apply (calm_push (d_tag def)), O3|]. intros [].
      match goal with |- tri _ (match ?x with _ => _ end) _ _ => destruct x as [df|] eqn:Hdf end.
      2:{ eapply tri_post; [apply both; intros; apply calm_handle|]. intros [] c. apply cinv'_le. lia. }
      eapply (tri_bind _ _ _ (fun _ => cinv' d g n j (S (m + i)))).
      { destruct (String.eqb_spec (d_tag def) "use") as [Hu|Hu].
        - injection Hdf as <-. apply Huse.
        - destruct (String.eqb_spec (d_tag def) "stop") as [Hs|Hs].
          { rewrite Hs in Hdf. injection Hdf as <-. apply both; intros. apply calm_stop. rewrite <- Hs. exact O3. }
          destruct (String.eqb_spec (d_tag def) "defs") as [Hd|Hd].
          { rewrite Hd in Hdf. injection Hdf as <-. apply tri_modify. specialize (O2 Hd).
            intros c [I|[_ I]]; right; (split; [exact O2|]); destruct I as (I1 & I2 & I3 & (I4 & I5 & I6) & I7);
              (split; [reflexivity|]); (split; [exact I2|]); (split; [exact I3|]); (split; [|exact I7]); (split; [exact I4|]); (split; [exact I5|]); discriminate. }
          apply both; intros. apply (calm_draw f (d_tag def)); [exact Hdf|].
          unfold is_gradient in O1. apply orb_false_iff in O1 as [G1 G2]. apply String.eqb_neq in Hs, Hd, Hu. unfold inert. cbn [existsb]. rewrite Hs, Hd, Hu, G1, G2. reflexivity. }
      intros []. destruct (String.eqb (d_tag def) "g"); cbn [negb].
      * eapply (tri_bind _ _ _ (fun _ => cinv' d g n j (m + S i))). { apply tri_ret. intros c. replace (m + S i) with (S (m + i)) by lia. auto. }
        intros []. apply IH. exact Hi.
      * eapply tri_bind; [apply both; intros; apply calm_pop|]. intros []. apply IH. exact Hi.
Qed.
Lemma calm_use f : u = true -> forall attrs d g n j m, tri (cinv' d g n j m) (useF (E := E) f attrs) (fun _ => cinv' d g n j m) Wc.
Proof.
  intros Hu. induction f as [|f IH]; intros attrs d g n j m; cbn [useF].
  - apply tri_nofuel. intros c Hc. split; [discriminate|]. eapply cinv'_stack; eauto.
  - eapply (tri_bind _ _ _ (fun _ => cinv' d g n j m)).
    { apply both. intros. apply tri_fn; [apply (kp_foldM same sa_refl sa_trans); apply (kp_useAttr same sa_refl sa_trans)|apply fn_foldM, fn_useAttr]. }
    intros [[href x] y].
    eapply (tri_bind _ _ _ (fun _ => cinv' d g n j m)). { apply tri_modify. intros c Hc. eapply same_cinv'; [apply sa_pc|exact Hc]. }
    intros []. apply (tri_deferred _ _ _ (fun _ => cinv' d g n j m) _ Wc).
    2:{ intros [] c. apply same_cinv', sa_pc. } 2:{ intros o c H. exact H. }
    assert (Herr : forall e, tri (cinv' d g n j m) (raise e) (fun _ : unit => cinv' d g n j m) Wc).
    { intros e. apply tri_raise. intros c Hc. split; [discriminate|]. eapply cinv'_stack; eauto. }
    destruct (String.eqb href ""); [apply Herr|]. destruct (hasPrefix href "#") eqn:Hp; cbn [negb]; [|apply Herr].
    apply prefix_iff in Hp as (id & Hid). cbn in Hid.
    intros c Hc. unfold bind at 1. unfold lift.
    assert (Hsl : slice href 1 (String.length href) = Ret id). { rewrite Hid. apply (slice_tail "#" id); reflexivity. }
    rewrite Hsl. cbv beta iota. unfold bind, gets. cbv beta iota.
    destruct (mget id (sv_defs (c_svg c))) as [ds|] eqn:Hg; [|exact (Herr _ c Hc)].
    assert (Hok : Forall (okc n) ds /\ (u = true -> level 0 ds <> None)) by (destruct Hc as [I|[_ I]]; exact (proj1 (proj2 (proj2 I)) _ _ Hg)). destruct Hok as [Ho1 Ho2]. specialize (Ho2 Hu).
    pose proof (calm_loop f d g n j m ds Ho1 (fun attrs m => IH attrs d g n j m) 0 Ho2) as T. rewrite Nat.add_0_r in T. exact (T c Hc).
Qed.

(** ** Tokens *)
Lemma calm_shown (P Q : cursor -> Prop) (f : M cursor unit) : tri P f (fun _ => Q) Wc -> tri Q (collectPath (E := E)) (fun _ => Q) Wc ->
  tri P (err <- attempt f ;; collectPath ;; match err with Some e => raise e | None => ret tt end) (fun _ => Q) Wc.
Proof.
  intros Hf Hcol. eapply tri_bind; [apply tri_attempt, Hf|]. intros [e|]; cbv beta iota.
  - intros c [_ Hs]. pose proof (kp_collectPath same sa_refl sa_trans sa_pc (ProofsEnd.sa_mask (E := E)) (ProofsEnd.sa_paths (E := E)) c) as Hk.
    assert (Hp : snd (collectPath c) <> Panic).
    { unfold collectPath, bind, gets. destruct (pc_path (c_pc c)); [discriminate|].
      unfold topStyle. destruct (c_inMask c); [destruct (c_mask c)|]; (destruct (c_stack c); [congruence|]) || idtac; discriminate. }
    unfold bind. destruct Hk as [_ _ _ _ Hst _ _ _ _]. destruct (collectPath c) as [t [a|e'| |]]; cbn in *; (split; [congruence|congruence]).
  - eapply tri_bind; [exact Hcol|]. intros []. apply tri_ret. auto.
Qed.
Lemma okc_more n n' d : (n = true -> n' = true) -> okc n d -> okc n' d.
Proof. unfold okc. intuition. Qed.
Lemma calm_start name attrs d g n j m : harmless E name attrs -> (name = "use"%string -> u = true) ->
  tri (cinv d g n j m) (stepToken fuel (TStart name attrs)) (fun _ c =>
    let j0 := if String.eqb (text_attr "id" "" attrs) "" then j else 0 in
    if is_gradient name then cinv d true n j (S m) c
    else if d && negb g then
      if String.eqb name "endg" then u && Nat.eqb j0 0 = false -> cinv d g n (pred j0) (S m) c
      else cinv d g (n || String.eqb name "defs") (if String.eqb name "g" then S j0 else j0) (S m) c
    else if String.eqb name "defs" then cinv true g n j (S m) c
    else if String.eqb name "use" && n then cinv d g n j (S m) c \/ cinv true g n j (S m) c
    else cinv d g n j (S m) c) Wc.
Proof.
  intros Hh Hus. cbn [stepToken]. eapply tri_bind; [apply (calm_push name), Hh|].
  intros []. intros c Hc. pose proof Hc as (I1 & I2 & I3 & (I4 & I5 & I6) & I7). unfold readStartElement. unfold bind at 1, gets at 1. cbv zeta. rewrite I1, I2.
  change (String.eqb name "radialGradient" || String.eqb name "linearGradient" || g) with ((String.eqb name "radialGradient" || String.eqb name "linearGradient") || g).
  replace (String.eqb name "radialGradient" || String.eqb name "linearGradient") with (is_gradient name) by (unfold is_gradient; apply orb_comm).
  destruct (is_gradient name) eqn:Hg.
  { cbn [orb negb andb]. rewrite andb_false_r. apply gradient_name in Hg as [->| ->]; cbn [drawFuncs drawFunc String.eqb Ascii.eqb Bool.eqb].
    - exact (calm_shown _ _ _ (calm_linear attrs d g n j (S m)) (calm_collect d true n j (S m)) c Hc).
    - exact (calm_shown _ _ _ (calm_radial attrs d g n j (S m)) (calm_collect d true n j (S m)) c Hc). }
  cbn [orb]. destruct (d && negb g) eqn:Hdg.
  { apply andb_true_iff in Hdg as [-> Hng]. rewrite attrID_text.
    set (j0 := if String.eqb (text_attr "id" "" attrs) "" then j else 0). unfold bind.
    assert (G : forall c1, kept n c1 -> c_inDefs c1 = true -> c_inGrad c1 = g -> Forall (okc n) (c_curDef c1) -> (u = true -> level 0 (c_curDef c1) = Some j0) -> J (S m) c1 ->
       let c2 := fst (addDef (mkDef (text_attr "id" "" attrs) name attrs) c1) in
       if String.eqb name "endg" then u && Nat.eqb j0 0 = false -> cinv true g n (pred j0) (S m) c2
       else cinv true g (n || String.eqb name "defs") (if String.eqb name "g" then S j0 else j0) (S m) c2).
    { intros c1 S1 S2 S3 S4 S5 S6. unfold addDef, modify. cbv zeta. cbn [fst].
      assert (K : forall n' i, (n = true -> n' = true) -> (name = "defs"%string -> n' = true) -> (u = true -> level j0 [mkDef (text_attr "id" "" attrs) name attrs] = Some i) ->
        cinv true g n' i (S m) (c_set_curDef (c_curDef c1 ++ [mkDef (text_attr "id" "" attrs) name attrs]) c1)).
      { intros n' i Hn' Hdf Hl. split; [exact S2|]. split; [exact S3|]. split.
        { intros id ds Hm. destruct (S1 _ _ Hm) as [A1 A2]. split; [|exact A2]. eapply Forall_impl; [|exact A1]. intros a. apply okc_more, Hn'. }
        split; [|exact S6]. cbn [c_curDef c_set_curDef]. split; [|split; [|discriminate]].
        - apply Forall_app. split. { eapply Forall_impl; [|exact S4]. intros a. apply okc_more, Hn'. }
          constructor; [|constructor]. split; [exact Hg|]. split; [exact Hdf|exact Hh].
        - intros Hu. rewrite level_app, (S5 Hu). exact (Hl Hu). }
      destruct (String.eqb_spec name "endg") as [->|He].
      - intros Hj. apply K; auto; [discriminate|]. intros Hu. rewrite Hu in Hj. destruct j0; [discriminate|]. reflexivity.
      - apply K; [intros ->; reflexivity|intros ->; apply orb_true_r|]. intros _. cbn [level d_tag]. apply String.eqb_neq in He. rewrite He. reflexivity. }
    unfold j0 in *. destruct (String.eqb (text_attr "id" "" attrs) "") eqn:Hid; cbn [negb].
    - unfold ret. refine (G c I3 I1 I2 I4 I5 I7).
    - unfold flushDefs, modify. destruct (c_curDef c) as [|h l] eqn:Hcd.
      + cbn [fst]. apply G; auto; rewrite Hcd; auto.
      + apply G; auto; [|constructor].
        intros id ds. cbn [c_svg c_set_svg c_set_curDef sv_defs sv_set_defs]. rewrite mget_put. destruct (String.eqb_spec id (d_id h)) as [->|N]; [|apply I3].
        intros Heq. injection Heq as <-. split; [exact I4|]. intros Hu. rewrite (I5 Hu). discriminate. }
  unfold drawFuncs. destruct (String.eqb_spec name "defs") as [->|Hd].
  { cbn [String.eqb Ascii.eqb Bool.eqb drawFunc]. refine (calm_shown (cinv d g n j (S m)) (cinv true g n j (S m)) (defsF attrs) _ (calm_collect _ _ _ _ _) c Hc).
    intros c0 (J1 & J2 & J3 & (J4 & J5 & J6) & J7). split; [reflexivity|]. split; [exact J2|]. split; [exact J3|]. split; [|exact J7].
    split; [exact J4|]. split; [exact J5|]. discriminate. }
  destruct (String.eqb_spec name "use") as [->|Hu].
  { assert (K : tri (cinv d g n j (S m)) (err <- attempt (useF fuel attrs) ;; collectPath ;; match err with Some e => raise e | None => ret tt end) (fun _ => cinv' d g n j (S m)) Wc).
    { apply calm_shown; [|apply both; intros; apply calm_collect]. eapply tri_pre; [apply calm_use, Hus; reflexivity|apply cinv_of]. }
    specialize (K c Hc). cbn [andb]. destruct ((_ <- attempt _ ;; _) c) as [c1 [[]|e| |]]; try exact K.
    destruct n; [destruct K as [K|[_ K]]; auto|]. destruct K as [K|[K _]]; [exact K|discriminate]. }
  cbn [andb]. destruct (drawFunc fuel name) as [df|] eqn:Hdf.
  - refine (calm_shown (cinv d g n j (S m)) (cinv d g n j (S m)) (df attrs) _ (calm_collect _ _ _ _ _) c Hc).
    destruct (String.eqb_spec name "stop") as [->|Hs]. { injection Hdf as <-. apply calm_stop, Hh. }
    apply (calm_draw fuel name); [exact Hdf|]. unfold is_gradient in Hg. apply orb_false_iff in Hg as [G1 G2]. apply String.eqb_neq in Hs, Hd, Hu. unfold inert. cbn [existsb]. rewrite Hs, Hd, Hu, G1, G2. reflexivity.
  - exact (calm_handle _ d g n j (S m) c Hc).
Qed.
Lemma calm_end name d g n j m :
  tri (cinv d g n j (S m)) (stepToken fuel (TEnd name)) (fun _ c =>
    if is_gradient name then cinv d false n j m c else if String.eqb name "defs" then cinv false g n 0 m c
    else if String.eqb name "g" && d then (u && Nat.eqb j 0 = false -> cinv d g n (pred j) m c) else cinv d g n j m c) Wc.
Proof.
  cbn [stepToken]. rewrite endElement_rest. eapply tri_bind; [apply calm_pop|].
  intros [] c Hc. pose proof Hc as (I1 & I2 & I3 & (I4 & I5 & I6) & I7). unfold endRest.
  destruct (is_gradient name) eqn:Hg.
  { destruct I7 as (A1 & A2 & A3 & A4).
    apply gradient_name in Hg as [->| ->]; cbn; (split; [exact I1|]); (split; [reflexivity|]); (split; [exact I3|]); (split; [auto|]); (split; [exact A1|]); (split; [exact A2|]); (split; [discriminate|exact A4]). }
  unfold is_gradient in Hg. rewrite orb_comm in Hg. rewrite Hg.
  destruct (String.eqb_spec name "defs") as [->|Hd].
  { cbn [String.eqb Ascii.eqb Bool.eqb]. unfold bind, flushDefs, modify. destruct (c_curDef c) as [|h l] eqn:Hcd; cbn; (split; [reflexivity|]); (split; [exact I2|]).
    - split; [exact I3|]. split; [|exact I7]. cbn. rewrite Hcd. split; [constructor|]. split; [intros _; reflexivity|reflexivity].
    - split; [|split; [|exact I7]; split; [constructor|]; split; [intros _; reflexivity|reflexivity]].
      intros id ds. cbn [c_svg c_set_svg c_set_curDef c_set_inDefs sv_defs sv_set_defs]. rewrite mget_put. destruct (String.eqb_spec id (d_id h)) as [->|N]; [|apply I3].
      intros Heq. injection Heq as <-. split; [exact I4|]. intros Hu. rewrite (I5 Hu). discriminate. }
  destruct (String.eqb name "g").
  { unfold bind, gets. rewrite I1. destruct d; cbn [andb]; [|exact Hc]. unfold addDef, modify. intros Hj.
    split; [exact I1|]. split; [exact I2|]. split; [exact I3|]. split; [|exact I7]. cbn [c_curDef c_set_curDef]. split; [|split; [|discriminate]].
    - apply Forall_app. split; [exact I4|]. constructor; [|constructor]. split; [reflexivity|]. split; [discriminate|]. split; [intros a k v []|discriminate].
    - intros Hu. rewrite level_app, (I5 Hu). rewrite Hu in Hj. destruct j; [discriminate|]. reflexivity. }
  cbn [andb]. destruct (String.eqb name "mask").
  { unfold bind, gets, onSvg, modify, ret. destruct (c_mask c); eapply same_cinv; try exact Hc; (constructor; auto). }
  destruct (String.eqb name "title"). { unfold modify. eapply same_cinv; [|exact Hc]. constructor; auto. intros [K1 K2]. split; [discriminate|exact K2]. }
  destruct (String.eqb name "desc"). { unfold modify. eapply same_cinv; [|exact Hc]. constructor; auto. intros [K1 K2]. split; [exact K1|discriminate]. }
  exact Hc.
Qed.
Lemma calm_chars s d g n j m : tri (cinv d g n j m) (stepToken fuel (TChar s)) (fun _ => cinv d g n j m) Wc.
Proof.
  cbn [stepToken]. intros c Hc. unfold charData, bind, gets.
  assert (Hno : notes_ok c) by (destruct Hc as (_ & _ & _ & _ & _ & H5 & _); exact H5). destruct Hno as [N1 N2].
  unfold lift, onSvg, modify, ret.
  assert (T : forall l l', appendLast l s = Ret l' -> l' <> []) by (intros l l' H; exact (appendLast_ne _ _ _ H)).
  destruct (c_inTitle c) eqn:Ht.
  - destruct (appendLast_total _ s (N1 eq_refl)) as (l & -> & Hl).
    assert (Hc1 : cinv d g n j m (c_set_svg (sv_set_titles l (c_svg c)) c)).
    { eapply same_cinv; [|exact Hc]. constructor; auto. intros [K1 K2]. split; [intros _; exact Hl|exact K2]. }
    destruct (c_inDesc c) eqn:Hd; [|exact Hc1].
    destruct (appendLast_total _ s (N2 eq_refl)) as (l2 & -> & Hl2).
    eapply same_cinv; [|exact Hc1]. constructor; auto. intros [K1 K2]. split; [exact K1|intros _; exact Hl2].
  - destruct (c_inDesc c) eqn:Hd; [|exact Hc].
    destruct (appendLast_total _ s (N2 eq_refl)) as (l2 & -> & Hl2).
    eapply same_cinv; [|exact Hc]. constructor; auto. intros [K1 K2]. split; [exact K1|intros _; exact Hl2].
Qed.
Lemma calm_stream toks : forall d g n j m c, follows u d g n j m toks = true -> (uses toks = true -> u = true) -> (forall name attrs, List.In (TStart name attrs) toks -> harmless E name attrs) ->
  cinv d g n j m c -> snd (mapM (stepToken fuel) toks c) <> Panic.
Proof.
  induction toks as [|t toks IH]; intros d g n j m c Hf Hu Hh Hc; [discriminate|]. cbn [mapM]. unfold bind.
  assert (Hh' : forall name attrs, List.In (TStart name attrs) toks -> harmless E name attrs) by (intros; apply Hh; now right).
  assert (Hu' : uses toks = true -> u = true) by (intros Hx; apply Hu; unfold uses in *; cbn [existsb]; rewrite Hx; apply orb_true_r).
  destruct t as [name attrs|name|s|]; cbn [follows] in Hf.
  - pose proof (calm_start name attrs d g n j m (Hh _ _ (or_introl eq_refl)) (fun Hx => Hu (f_equal (fun b => b || uses toks) (proj2 (String.eqb_eq name "use") Hx))) c Hc) as K. destruct (stepToken fuel (TStart name attrs) c) as [c1 [[]|e| |]]; try discriminate; [|exact (proj1 K)].
    cbv zeta in *. set (j0 := if String.eqb (text_attr "id" "" attrs) "" then j else 0) in *.
    destruct (is_gradient name); [exact (IH _ _ _ _ _ _ Hf Hu' Hh' K)|].
    destruct (d && negb g).
    { destruct (String.eqb name "endg"); [|exact (IH _ _ _ _ _ _ Hf Hu' Hh' K)].
      apply andb_true_iff in Hf as [Hj Hf]. apply negb_true_iff in Hj. exact (IH _ _ _ _ _ _ Hf Hu' Hh' (K Hj)). }
    destruct (String.eqb name "defs"); [exact (IH _ _ _ _ _ _ Hf Hu' Hh' K)|].
    destruct (String.eqb name "use" && n); [|exact (IH _ _ _ _ _ _ Hf Hu' Hh' K)].
    apply andb_true_iff in Hf as [H1 H2]. destruct K as [K|K]; [exact (IH _ _ _ _ _ _ H1 Hu' Hh' K)|exact (IH _ _ _ _ _ _ H2 Hu' Hh' K)].
  - destruct m as [|m]; [discriminate|].
    pose proof (calm_end name d g n j m c Hc) as K. destruct (stepToken fuel (TEnd name) c) as [c1 [[]|e| |]]; try discriminate; [|exact (proj1 K)].
    destruct (is_gradient name); [exact (IH _ _ _ _ _ _ Hf Hu' Hh' K)|]. destruct (String.eqb name "defs"); [exact (IH _ _ _ _ _ _ Hf Hu' Hh' K)|].
    destruct (String.eqb name "g" && d); [|exact (IH _ _ _ _ _ _ Hf Hu' Hh' K)].
    apply andb_true_iff in Hf as [Hj Hf]. apply negb_true_iff in Hj. exact (IH _ _ _ _ _ _ Hf Hu' Hh' (K Hj)).
  - pose proof (calm_chars s d g n j m c Hc) as K. destruct (stepToken fuel (TChar s) c) as [c1 [[]|e| |]]; try discriminate; [|exact (proj1 K)]. exact (IH _ _ _ _ _ _ Hf Hu' Hh' K).
  - exact (IH _ _ _ _ _ _ Hf Hu' Hh' Hc).
Qed.
Lemma cinv_start mode : cinv false false false 0 0 (cursor0 (E := E) mode).
Proof.
  split; [reflexivity|]. split; [reflexivity|]. split; [intros id ds H; discriminate H|]. split; [split; [constructor|split; [intros _; reflexivity|reflexivity]]|].
  split; [cbn; lia|]. split; [split; discriminate|]. split; [discriminate|]. intros id p Hp. discriminate Hp.
Qed.
End Calm.
Theorem calm_streams {E : Env} (fuel : nat) mode (toks : list token) tm : orderly_stream toks = true ->
  (forall name attrs, List.In (TStart name attrs) toks -> harmless E name attrs) -> parse (E := E) fuel mode toks tm <> PPanic.
Proof.
  intros H1 H2. pose proof (calm_stream fuel (uses toks) toks _ _ _ _ _ _ H1 (fun h => h) H2 (cinv_start (uses toks) mode)) as K.
  unfold parse. destruct (mapM (stepToken fuel) toks (cursor0 mode)) as [c [[]|e| |]]; try discriminate; [destruct tm; [destruct (seenTag toks)|]; discriminate|cbn in K; congruence].
Qed.

(** ** Streams without <use> *)
Lemma follows_balanced toks : forall d g n j h, balanced h toks = true -> follows false d g n j h toks = true.
Proof.
  induction toks as [|[name attrs|name|s|] toks IH]; intros d g n j h H; cbn [follows balanced] in *; auto.
  - cbv zeta. cbn [andb negb]. repeat match goal with |- context [if ?b then _ else _] => destruct b end; rewrite ?IH by assumption; auto.
  - destruct h; [discriminate|]. cbn [andb negb]. repeat match goal with |- context [if ?b then _ else _] => destruct b end; auto.
Qed.
Theorem calm_no_use {E : Env} (fuel : nat) mode (toks : list token) tm : uses toks = false -> balanced 0 toks = true ->
  (forall name attrs, List.In (TStart name attrs) toks -> harmless E name attrs) -> parse (E := E) fuel mode toks tm <> PPanic.
Proof. intros Hu Hb Hh. apply calm_streams; [|exact Hh]. unfold orderly_stream. rewrite Hu. apply follows_balanced, Hb. Qed.
Lemma balanced_app a : forall h b, balanced h (a ++ b) = true -> balanced h a = true.
Proof. induction a as [|[name attrs|name|s|] a IH]; intros h b H; cbn [app balanced] in *; eauto. destruct h; eauto. Qed.
Lemma balanced_node m : forall h r, balanced h (tokens m ++ r) = balanced h r.
Proof.
  induction m as [name attrs kids IH|s|] using node_ind'; intros h r; try reflexivity.
  cbn [tokens app balanced]. rewrite <- app_assoc.
  assert (K : forall ns r h, Forall (fun m => forall h r, balanced h (tokens m ++ r) = balanced h r) ns -> balanced h (flat_map tokens ns ++ r) = balanced h r).
  { induction ns as [|m ns IHn]; intros r0 h0 Hf; [reflexivity|]. inversion Hf; subst. cbn [flat_map]. rewrite <- app_assoc. rewrite H1. apply IHn. assumption. }
  rewrite K by exact IH. reflexivity.
Qed.
Lemma balanced_nodes ns : balanced 0 (flat_map tokens ns) = true.
Proof.
  induction ns as [|m ns IH]; [reflexivity|]. cbn [flat_map]. rewrite balanced_node. exact IH.
Qed.
Lemma start_elements m name attrs : List.In (TStart name attrs) (tokens m) -> List.In (name, attrs) (elements m).
Proof.
  induction m as [nm at_ kids IH|s|] using node_ind'; cbn [tokens elements]; [|intros [H|[]]; discriminate..].
  intros [H|H]; [injection H as -> ->; now left|]. right. apply in_app_or in H as [H|[H|[]]]; [|discriminate].
  apply in_flat_map in H as (k & Hk & H). apply in_flat_map. exists k. split; [exact Hk|]. rewrite Forall_forall in IH. exact (IH k Hk H).
Qed.
Theorem calm_documents {E : Env} (fuel : nat) mode (ns : list node) (toks rest : list token) tm :
  (forall name attrs, List.In (name, attrs) (flat_map elements ns) -> name <> "use"%string) -> harmless_doc E ns ->
  flat_map tokens ns = toks ++ rest -> parse (E := E) fuel mode toks tm <> PPanic.
Proof.
  intros Hu Hh He.
  assert (Hs : forall name attrs, List.In (TStart name attrs) toks -> List.In (name, attrs) (flat_map elements ns)).
  { intros name attrs Hin. assert (H : List.In (TStart name attrs) (flat_map tokens ns)) by (rewrite He; apply in_or_app; now left).
    apply in_flat_map in H as (m & Hm & H). apply in_flat_map. exists m. split; [exact Hm|]. apply start_elements, H. }
  apply calm_no_use.
  - unfold uses. apply not_true_is_false. intros H. apply existsb_exists in H as ([name attrs|name|s|] & Hin & H); try discriminate.
    apply String.eqb_eq in H. exact (Hu _ _ (Hs _ _ Hin) H).
  - apply (balanced_app _ _ rest). rewrite <- He. apply balanced_nodes.
  - intros name attrs Hin. apply Hh, Hs, Hin.
Qed.

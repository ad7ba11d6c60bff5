(** * ProofsStream: termination for arbitrary token streams, and independence of the fuel *)
From Coq Require Import Lia.
From Verif Require Export SpecStream ProofsEnd2.
Local Open Scope go_scope.

Section Stream.
Context {E : Env} (rank : string -> nat) (k fuel : nat).
Context (Hturns : turns (E := E) k) (Hrank : forall x, rank x + k + 1 < fuel).
Notation cursor := (cursor E).
Definition okd (n : bool) (g : string) (d : definition) : Prop :=
  is_gradient (d_tag d) = false /\ (d_tag d = "defs"%string -> n = true)
  /\ (d_tag d = "use"%string -> forall x, text_attr "href" "" (d_attrs d) = String "#" x -> rank x < rank g).
Definition stored (n : bool) (c : cursor) : Prop := forall id ds, mget id (sv_defs (c_svg c)) = Some ds -> Forall (okd n id) ds.
Definition inv (d g n : bool) (gr : string) (c : cursor) : Prop :=
  c_inDefs c = d /\ c_inGrad c = g /\ stored n c
  /\ match c_curDef c with [] => gr = EmptyString | h :: _ => d_id h = gr /\ d = true end /\ Forall (okd n gr) (c_curDef c).
Definition sm (c c' : cursor) : Prop :=
  c_inDefs c' = c_inDefs c /\ c_inGrad c' = c_inGrad c /\ sv_defs (c_svg c') = sv_defs (c_svg c) /\ c_curDef c' = c_curDef c.
Lemma sm_refl c : sm c c. Proof. unfold sm. auto. Qed.
Lemma sm_trans a b c : sm a b -> sm b c -> sm a c. Proof. unfold sm. intuition congruence. Qed.
Lemma inv_sm d g n gr c c' : sm c c' -> inv d g n gr c -> inv d g n gr c'.
Proof. intros (H1 & H2 & H3 & H4) (I1 & I2 & I3 & I4). unfold inv, stored. rewrite H1, H2, H3, H4. auto. Qed.
Ltac trivial_sm := repeat split; reflexivity.
Lemma okd_more n n' g d : (n = true -> n' = true) -> okd n g d -> okd n' g d.
Proof. unfold okd. intuition. Qed.
Lemma inv_more d g n n' gr c : (n = true -> n' = true) -> inv d g n gr c -> inv d g n' gr c.
Proof.
  intros H (I1 & I2 & I3 & I4 & I5). repeat split; auto.
  - intros id ds Hm. eapply Forall_impl; [|exact (I3 _ _ Hm)]. intros a. apply okd_more, H.
  - eapply Forall_impl; [|exact I5]. intros a. apply okd_more, H.
Qed.
Lemma sm_pc p c : sm c (c_set_pc p c). Proof. trivial_sm. Qed.
Lemma sm_heap h c : sm c (c_set_svg (sv_set_mheap h (c_svg c)) c). Proof. trivial_sm. Qed.
Lemma sm_stack s c : sm c (c_set_stack s c). Proof. trivial_sm. Qed.
Lemma sm_push attrs : keeps sm (pushStyle (E := E) attrs).
Proof. apply (kp_pushStyle sm sm_refl sm_trans sm_pc sm_heap attrs sm_stack). Qed.
Lemma sm_pop : keeps sm (popStyle (E := E)). Proof. apply (kp_popStyle sm sm_refl sm_stack). Qed.
Lemma sm_handle s : keeps sm (handleError (E := E) s). Proof. apply (kp_handleError sm sm_refl sm_trans sm_pc). Qed.
Lemma sm_onGrad f : keeps sm (onGrad (E := E) f).
Proof. intros c. unfold onGrad. destruct (c_grad c) as [p|]; [|apply sm_refl]. destruct (nth_error _ p); [trivial_sm|apply sm_refl]. Qed.
Lemma sm_collect : keeps sm (collectPath (E := E)).
Proof. apply (kp_collectPath sm sm_refl sm_trans sm_pc); intros; trivial_sm. Qed.
Lemma sm_draw f name df attrs : drawFunc (E := E) f name = Some df -> is_gradient name = false -> name <> "defs"%string -> keeps sm (df attrs).
Proof.
  unfold drawFunc, is_gradient. intros H Hg Hd. apply orb_false_iff in Hg as [G1 G2]. apply String.eqb_neq in Hd. rewrite G1, G2, Hd in H.
  repeat match type of H with (if ?b then _ else _) = _ => destruct b; [injection H as <-|] end; try discriminate.
  - apply (kp_svgF sm sm_refl sm_trans sm_pc). intros; trivial_sm.
  - apply (keeps_ret sm sm_refl).
  - apply (kp_lineF sm sm_refl sm_trans sm_pc).
  - unfold stopF. apply (keeps_bind sm sm_trans); [apply (keeps_gets sm sm_refl)|]. intros b. destruct b; [|apply (keeps_ret sm sm_refl)].
    apply (keeps_bind sm sm_trans); [apply (kp_foldM sm sm_refl sm_trans); apply (kp_stopAttr sm sm_refl sm_trans)|]. intros s. apply sm_onGrad.
  - apply (kp_rectF sm sm_refl sm_trans sm_pc).
  - apply (kp_circleF sm sm_refl sm_trans sm_pc).
  - apply (kp_circleF sm sm_refl sm_trans sm_pc).
  - apply (kp_polylineF sm sm_refl sm_trans sm_pc).
  - apply (kp_polygonF sm sm_refl sm_trans sm_pc).
  - apply (kp_pathF sm sm_refl sm_trans sm_pc).
  - intros c. trivial_sm.
  - intros c. trivial_sm.
  - apply (kp_maskF sm sm_refl sm_trans). intros; trivial_sm.
Qed.

(** after a use: definitions may have started *)
Definition inv' (d g n : bool) (gr : string) (c : cursor) : Prop := inv d g n gr c \/ (n = true /\ inv true g n gr c).
Definition Wn (o : outcome unit) (c : cursor) : Prop := o <> NoFuel.
Lemma inv'_sm d g n gr c c' : sm c c' -> inv' d g n gr c -> inv' d g n gr c'.
Proof. intros H [I|[H1 I]]; [left|right; split; [exact H1|]]; eapply inv_sm; eassumption. Qed.
Lemma tri_sm {A} d g n gr (m : M cursor A) : keeps sm m -> nf m -> tri (inv' d g n gr) m (fun _ => inv' d g n gr) Wn.
Proof.
  intros Hk Hn c Hc. specialize (Hk c). specialize (Hn c). destruct (m c) as [t [a|e| |]]; cbn [fst snd] in *; [exact (inv'_sm _ _ _ _ _ _ Hk Hc)|discriminate..|congruence].
Qed.
Lemma inv_stored d g n gr c : inv' d g n gr c -> stored n c.
Proof. intros [I|[_ I]]; apply I. Qed.
Definition fits (f : nat) (attrs : list attr) : Prop := 0 < f /\ forall x, text_attr "href" "" attrs = String "#" x -> rank x + k + 1 < f.
Lemma loop_tri f id d g n gr ds : rank id + k + 1 < S f -> Forall (okd n id) ds ->
  (forall attrs, fits f attrs -> tri (inv' d g n gr) (useF (E := E) f attrs) (fun _ => inv' d g n gr) Wn) ->
  tri (inv' d g n gr) (useLoop (E := E) (fun tag => if String.eqb tag "use" then Some (useF f) else drawFunc f tag) ds) (fun _ => inv' d g n gr) Wn.
Proof.
  intros Hf Hds Huse. induction Hds as [|def ds (O1 & O2 & O3) Hds IH]; cbn [useLoop]; [apply tri_ret; auto|].
  destruct (String.eqb (d_tag def) "endg").
  { eapply tri_bind; [apply tri_sm; [apply sm_pop|apply nf_popStyle]|]. intros []. exact IH. }
  eapply tri_bind; [apply tri_sm; [apply sm_push|apply nf_pushStyle]|]. intros [].
  match goal with |- tri _ (match ?x with _ => _ end) _ _ => destruct x as [df|] eqn:Hdf end.
  2:{ apply tri_sm; [apply sm_handle|apply fine_nf, fn_handleError]. }
  eapply (tri_bind _ _ _ (fun _ => inv' d g n gr)).
  { destruct (String.eqb_spec (d_tag def) "use") as [Hu|Hu].
    - injection Hdf as <-. apply Huse. split; [lia|]. intros x Hx. specialize (O3 Hu x Hx). lia.
    - destruct (String.eqb_spec (d_tag def) "defs") as [Hd|Hd].
      + rewrite Hd in Hdf. injection Hdf as <-. apply tri_modify. specialize (O2 Hd).
        assert (K : forall d0 c, inv d0 g n gr c -> inv true g n gr (c_set_inDefs true c)).
        { intros d0 c (I1 & I2 & I3 & I4 & I5). repeat split; auto. cbn. destruct (c_curDef c); [exact I4|]. split; [apply I4|reflexivity]. }
        intros c [I|[_ I]]; right; (split; [exact O2|]); eapply K; exact I.
      + apply tri_sm; [eapply sm_draw; eassumption|eapply nf_drawFunc; [exact Hturns|..|exact Hdf]; lia]. }
  intros []. eapply (tri_bind _ _ _ (fun _ => inv' d g n gr)); [|intros []; exact IH].
  destruct (negb _); [apply tri_sm; [apply sm_pop|apply nf_popStyle]|apply tri_ret; auto].
Qed.
Lemma use_tri f : forall attrs d g n gr, fits f attrs -> tri (inv' d g n gr) (useF (E := E) f attrs) (fun _ => inv' d g n gr) Wn.
Proof.
  induction f as [|f IH]; intros attrs d g n gr Hm; cbn [useF]; [destruct Hm; lia|].
  eapply tri_bind. { apply (tri_info _ _ (fun _ => inv' d g n gr) _ (fun l => fst (fst l) = text_attr "href" "" attrs)).
    - apply tri_sm; [apply (kp_foldM sm sm_refl sm_trans); apply (kp_useAttr sm sm_refl sm_trans)|apply fine_nf, fn_foldM, fn_useAttr].
    - intros c c' a. apply useAttr_href. }
  intros [[href x] y]. cbn [fst].
  eapply (tri_bind _ _ _ (fun _ c => inv' d g n gr c /\ href = text_attr "href" "" attrs)).
  { apply tri_modify. intros c [Hc Hh]. split; [|exact Hh]. eapply inv'_sm; [apply sm_pc|exact Hc]. }
  intros []. apply (tri_deferred _ _ _ (fun _ => inv' d g n gr) _ Wn).
  2:{ intros [] c. apply inv'_sm, sm_pc. } 2:{ intros o c H. exact H. }
  assert (Herr : forall e, tri (fun c => inv' d g n gr c /\ href = text_attr "href" "" attrs) (raise e) (fun _ : unit => inv' d g n gr) Wn).
  { intros e. apply tri_raise. intros c _. discriminate. }
  destruct (String.eqb href ""); [apply Herr|]. destruct (hasPrefix href "#") eqn:Hp; cbn [negb]; [|apply Herr].
  apply prefix_iff in Hp as (id & Hid). cbn in Hid.
  intros c [Hc Hh]. unfold bind at 1. unfold lift.
  assert (Hsl : slice href 1 (String.length href) = Ret id). { rewrite Hid. apply (slice_tail "#" id); reflexivity. }
  rewrite Hsl. cbv beta iota. unfold bind, gets. cbv beta iota.
  destruct (mget id (sv_defs (c_svg c))) as [ds|] eqn:Hg; [|exact (Herr _ c (conj Hc Hh))].
  apply (loop_tri f id d g n gr ds); [apply (proj2 Hm); congruence|exact (inv_stored _ _ _ _ _ Hc _ _ Hg)|intros at0 Ha; apply IH, Ha|exact Hc].
Qed.

Lemma gradient_name name : is_gradient name = true -> name = "linearGradient"%string \/ name = "radialGradient"%string.
Proof. unfold is_gradient. intros H. apply orb_true_iff in H as [H|H]; apply String.eqb_eq in H; auto. Qed.
Lemma sm_registerGrad id : keeps sm (registerGrad (E := E) id).
Proof. intros c. unfold registerGrad. destruct (c_grad c); [trivial_sm|apply sm_refl]. Qed.
Lemma sm_readGradAttr a : keeps sm (readGradAttr (E := E) a).
Proof.
  unfold readGradAttr.
  repeat first [apply sm_onGrad|apply (keeps_ret sm sm_refl)|apply (keeps_raise sm sm_refl)|apply (keeps_lift sm sm_refl)|apply (keeps_gets sm sm_refl)
    |apply (kp_parseTransform sm sm_refl sm_trans sm_pc)|apply (keeps_if sm)|(apply (keeps_bind sm sm_trans); [|intros ?])
    |match goal with |- keeps _ (match ?x with _ => _ end) => destruct x end].
Qed.
Lemma sm_gradient name attrs df f : is_gradient name = true -> drawFunc (E := E) f name = Some df ->
  exists m : M cursor unit, df attrs = (modify (c_set_inGrad true) ;; m) /\ keeps sm m.
Proof.
  intros Hg H.
  assert (Hn : keeps sm (newGrad (E := E))) by (intros c; trivial_sm).
  apply gradient_name in Hg as [->| ->]; injection H as <-; (eexists; split; [reflexivity|]).
  - apply (keeps_bind sm sm_trans); [exact Hn|]. intros [].
    repeat first [apply sm_onGrad|apply sm_registerGrad|apply sm_readGradAttr|apply (keeps_ret sm sm_refl)|apply (keeps_lift sm sm_refl)|apply (keeps_gets sm sm_refl)
      |apply (kp_theGrad sm sm_refl)|(apply (kp_foldM sm sm_refl sm_trans); intros [[[? ?] ?] ?] ?; unfold linAttr)|apply (keeps_if sm)|(apply (keeps_bind sm sm_trans); [|intros ?])
      |match goal with |- keeps _ (match ?x with _ => _ end) => destruct x | |- keeps _ (let _ := _ in _) => cbv zeta end].
  - apply (keeps_bind sm sm_trans); [exact Hn|]. intros [].
    repeat first [apply sm_onGrad|apply sm_registerGrad|apply sm_readGradAttr|apply (keeps_ret sm sm_refl)|apply (keeps_lift sm sm_refl)|apply (keeps_gets sm sm_refl)
      |apply (kp_theGrad sm sm_refl)|(apply (kp_foldM sm sm_refl sm_trans); intros [[[[[? ?] ?] ?] ?] ?] ?; unfold radAttr)|apply (keeps_if sm)|(apply (keeps_bind sm sm_trans); [|intros ?])
      |match goal with |- keeps _ (match ?x with _ => _ end) => destruct x | |- keeps _ (let _ := _ in _) => cbv zeta end].
Qed.

Lemma drawn_tri (P Q : cursor -> Prop) (m : M cursor unit) : tri P m (fun _ => Q) Wn -> (forall c c', sm c c' -> Q c -> Q c') ->
  tri P (err <- attempt m ;; collectPath ;; match err with Some e => raise e | None => ret tt end) (fun _ => Q) Wn.
Proof.
  intros Hm HQ c Hc. specialize (Hm c Hc). unfold bind, attempt. destruct (m c) as [c1 [[]|e| |]]; try exact Hm.
  - pose proof (sm_collect c1) as K. pose proof (nf_collectPath (E := E) c1) as N. destruct (collectPath c1) as [c2 [[]|e| |]]; cbn [fst snd] in *; [exact (HQ _ _ K Hm)|discriminate..|congruence].
  - pose proof (nf_collectPath (E := E) c1) as N. destruct (collectPath c1) as [c2 [[]|e'| |]]; cbn [snd] in *; try discriminate. congruence.
Qed.
(** a step leads from a place in the stream to the next; [Q] are the next places *)
Lemma start_tri name attrs d g n gr :
  tri (inv d g n gr) (stepToken fuel (TStart name attrs)) (fun _ c =>
    if is_gradient name then inv d true n gr c
    else if d && negb g then
      (String.eqb name "use" = true -> forall x, text_attr "href" "" attrs = String "#" x -> rank x < rank (group_of gr attrs))
      -> inv d g (n || String.eqb name "defs") (group_of gr attrs) c
    else if String.eqb name "defs" then inv true g n gr c
    else if String.eqb name "use" && n then inv d g n gr c \/ inv true g n gr c
    else inv d g n gr c) Wn.
Proof.
  cbn [stepToken]. eapply (tri_bind _ _ _ (fun _ => inv d g n gr)).
  { intros c Hc. pose proof (sm_push attrs c) as K. pose proof (nf_pushStyle (E := E) attrs c) as N.
    destruct (pushStyle attrs c) as [c1 [[]|e| |]]; cbn [fst snd] in *; [exact (inv_sm _ _ _ _ _ _ K Hc)|discriminate..|congruence]. }
  intros []. intros c Hc. pose proof Hc as (I1 & I2 & I3 & I4 & I5). unfold readStartElement. unfold bind at 1, gets at 1. cbv zeta. rewrite I1, I2.
  change (String.eqb name "radialGradient" || String.eqb name "linearGradient" || g) with ((String.eqb name "radialGradient" || String.eqb name "linearGradient") || g).
  replace (String.eqb name "radialGradient" || String.eqb name "linearGradient") with (is_gradient name) by (unfold is_gradient; apply orb_comm).
  destruct (is_gradient name) eqn:Hg.
  { cbn [orb negb andb]. rewrite andb_false_r. unfold drawFuncs.
    assert (Hu : String.eqb name "use" = false) by (apply gradient_name in Hg as [->| ->]; reflexivity). rewrite Hu.
    destruct (drawFunc fuel name) as [df|] eqn:Hdf; [|apply gradient_name in Hg as [->| ->]; discriminate].
    destruct (sm_gradient name attrs df fuel Hg Hdf) as (m & Hm & Hk).
    refine (drawn_tri (inv d g n gr) (inv d true n gr) (df attrs) _ (inv_sm d true n gr) c Hc).
    pose proof (nf_drawFunc k Hturns fuel name df attrs ltac:(specialize (Hrank EmptyString); lia) Hdf) as Hn.
    intros c0 (J1 & J2 & J3 & J4). specialize (Hn c0). rewrite Hm in *. unfold bind, modify in *. specialize (Hk (c_set_inGrad true c0)).
    destruct (m (c_set_inGrad true c0)) as [c1 [[]|e| |]]; cbn [fst snd] in *; [|discriminate..|congruence].
    eapply inv_sm; [exact Hk|]. split; [exact J1|]. split; [reflexivity|]. split; [exact J3|exact J4]. }
  cbn [orb]. destruct (d && negb g) eqn:Hdg.
  { apply andb_true_iff in Hdg as [-> Hng]. rewrite attrID_text.
    set (n' := n || String.eqb name "defs"). unfold bind.
    assert (G : forall c1, stored n c1 -> c_inDefs c1 = true -> c_inGrad c1 = g -> Forall (okd n (group_of gr attrs)) (c_curDef c1)
       -> match c_curDef c1 with [] => group_of gr attrs = text_attr "id" "" attrs | h :: _ => d_id h = group_of gr attrs end
       -> (String.eqb name "use" = true -> forall x, text_attr "href" "" attrs = String "#" x -> rank x < rank (group_of gr attrs))
       -> inv true g n' (group_of gr attrs) (fst (addDef (mkDef (text_attr "id" "" attrs) name attrs) c1))).
    { intros c1 S1 S2 S3 S4 S5 S6. unfold addDef, modify. cbn [fst].
      assert (Hmore : n = true -> n' = true) by (intros ->; reflexivity).
      split; [exact S2|]. split; [exact S3|]. split.
      { intros id ds Hm. eapply Forall_impl; [|exact (S1 _ _ Hm)]. intros a. apply okd_more, Hmore. }
      cbn [c_curDef c_set_curDef]. split.
      { destruct (c_curDef c1); cbn [app d_id]; split; auto. }
      apply Forall_app. split. { eapply Forall_impl; [|exact S4]. intros a. apply okd_more, Hmore. }
      constructor; [|constructor]. split; [exact Hg|]. cbn [d_tag d_attrs]. split.
      - intros ->. unfold n'. apply orb_true_r.
      - intros ->. apply S6. reflexivity. }
    unfold group_of in *. destruct (String.eqb (text_attr "id" "" attrs) "") eqn:Hid; cbn [negb].
    - unfold ret. intros S6. refine (G c I3 I1 I2 I5 _ S6). apply String.eqb_eq in Hid. rewrite Hid. destruct (c_curDef c); [exact I4|apply I4].
    - unfold flushDefs, modify. intros S6. apply G; [| | | | |exact S6]; destruct (c_curDef c) as [|h l] eqn:Hcd; cbn; auto; try (rewrite Hcd; auto).
      intros id ds. cbn [c_svg c_set_svg c_set_curDef sv_defs sv_set_defs]. rewrite mget_put. destruct (String.eqb_spec id (d_id h)) as [->|N]; [|apply I3].
      intros Heq. injection Heq as <-. destruct I4 as [-> _]. exact I5. }
  unfold drawFuncs. destruct (String.eqb_spec name "defs") as [->|Hd].
  { cbn [String.eqb Ascii.eqb Bool.eqb drawFunc]. refine (drawn_tri (inv d g n gr) (inv true g n gr) (defsF attrs) _ (inv_sm true g n gr) c Hc).
    intros c0 (J1 & J2 & J3 & J4 & J5). split; [reflexivity|]. split; [exact J2|]. split; [exact J3|]. split; [|exact J5].
    cbn. destruct (c_curDef c0); [exact J4|]. split; [apply J4|reflexivity]. }
  destruct (String.eqb_spec name "use") as [->|Hu].
  { assert (K : tri (inv d g n gr) (err <- attempt (useF fuel attrs) ;; collectPath ;; match err with Some e => raise e | None => ret tt end) (fun _ => inv' d g n gr) Wn).
    { apply drawn_tri; [|apply inv'_sm]. eapply tri_pre; [apply use_tri|intros c0 H0; left; exact H0].
      split; [specialize (Hrank EmptyString); lia|]. intros x _. apply Hrank. }
    specialize (K c Hc). cbn [andb]. destruct ((_ <- attempt _ ;; _) c) as [c1 [[]|e| |]]; try exact K.
    destruct n; [destruct K as [K|[_ K]]; auto|]. destruct K as [K|[K _]]; [exact K|discriminate]. }
  cbn [andb]. destruct (drawFunc fuel name) as [df|] eqn:Hdf.
  - refine (drawn_tri (inv d g n gr) (inv d g n gr) (df attrs) _ (inv_sm d g n gr) c Hc).
    pose proof (nf_drawFunc k Hturns fuel name df attrs ltac:(specialize (Hrank EmptyString); lia) Hdf) as Hn. pose proof (sm_draw _ _ _ attrs Hdf Hg Hd) as Hk.
    intros c0 H0. specialize (Hn c0). specialize (Hk c0). destruct (df attrs c0) as [c1 [[]|e| |]]; cbn [fst snd] in *; [exact (inv_sm _ _ _ _ _ _ Hk H0)|discriminate..|congruence].
  - pose proof (sm_handle (cannotProcess name) c) as K. pose proof (fine_nf _ (fn_handleError (E := E) (cannotProcess name)) c) as N.
    destruct (handleError (cannotProcess name) c) as [c1 [[]|e| |]]; cbn [fst snd] in *; [exact (inv_sm _ _ _ _ _ _ K Hc)|discriminate..|congruence].
Qed.
Lemma end_tri name d g n gr :
  tri (inv d g n gr) (stepToken fuel (TEnd name)) (fun _ c =>
    if is_gradient name then inv d false n gr c else if String.eqb name "defs" then inv false g n "" c else inv d g n gr c) Wn.
Proof.
  cbn [stepToken]. rewrite endElement_rest. eapply (tri_bind _ _ _ (fun _ => inv d g n gr)).
  { intros c Hc. pose proof (sm_pop c) as K. pose proof (nf_popStyle (E := E) c) as N.
    destruct (popStyle c) as [c1 [[]|e| |]]; cbn [fst snd] in *; [exact (inv_sm _ _ _ _ _ _ K Hc)|discriminate..|congruence]. }
  intros [] c Hc. pose proof Hc as (I1 & I2 & I3 & I4 & I5). unfold endRest.
  destruct (is_gradient name) eqn:Hg.
  { apply gradient_name in Hg as [->| ->]; cbn; (split; [exact I1|]); (split; [reflexivity|]); (split; [exact I3|]); (split; [exact I4|exact I5]). }
  unfold is_gradient in Hg. rewrite orb_comm in Hg. rewrite Hg.
  destruct (String.eqb_spec name "defs") as [->|Hd].
  { cbn [String.eqb Ascii.eqb Bool.eqb]. unfold bind, flushDefs, modify. destruct (c_curDef c) as [|h l] eqn:Hcd; cbn; (split; [reflexivity|]); (split; [exact I2|]).
    - split; [exact I3|]. cbn [c_curDef c_set_inDefs]. rewrite Hcd. split; [reflexivity|constructor].
    - split; [|split; [reflexivity|constructor]].
      intros id ds. cbn [c_svg c_set_svg c_set_curDef c_set_inDefs sv_defs sv_set_defs]. rewrite mget_put. destruct (String.eqb_spec id (d_id h)) as [->|N]; [|apply I3].
      intros Heq. injection Heq as <-. destruct I4 as [-> _]. exact I5. }
  destruct (String.eqb name "g").
  { unfold bind, gets. rewrite I1. destruct d; [|exact Hc]. unfold addDef, modify. split; [exact I1|]. split; [exact I2|]. split; [exact I3|]. cbn [c_curDef c_set_curDef]. split.
    - destruct (c_curDef c); cbn [app d_id]; [split; [symmetry; exact I4|reflexivity]|exact I4].
    - apply Forall_app. split; [exact I5|]. constructor; [|constructor]. repeat split; discriminate. }
  destruct (String.eqb name "mask").
  { unfold bind, gets, onSvg, modify, ret. destruct (c_mask c); (eapply inv_sm; [|exact Hc]); repeat split; reflexivity. }
  destruct (String.eqb name "title"). { eapply inv_sm; [|exact Hc]; repeat split; reflexivity. }
  destruct (String.eqb name "desc"). { eapply inv_sm; [|exact Hc]; repeat split; reflexivity. }
  exact Hc.
Qed.
Lemma chars_tri s d g n gr : tri (inv d g n gr) (stepToken fuel (TChar s)) (fun _ => inv d g n gr) Wn.
Proof.
  intros c Hc. cbn [stepToken]. pose proof (kp_charData sm sm_refl sm_trans) as K.
  assert (K' : keeps sm (charData (E := E) s)) by (apply K; intros; repeat split; reflexivity). clear K. specialize (K' c).
  assert (N : snd (charData s c) <> NoFuel).
  { unfold charData. revert c Hc K'. intros c _ _. unfold bind at 1, gets at 1. generalize c at 1 2 3 4. intros c0.
    revert c. change (nf ((if c_inTitle c0 then l <- lift (appendLast (sv_titles (c_svg c0)) s) ;; onSvg (E := E) (sv_set_titles l) else ret tt) ;;
      (if c_inDesc c0 then l <- lift (appendLast (sv_descs (c_svg c0)) s) ;; onSvg (E := E) (sv_set_descs l) else ret tt))).
    apply nf_bind; [apply nf_if|intros []; apply nf_if]; try apply nf_ret; (apply nf_bind; [apply nf_lift, appendLast_nf|intros l; apply nf_modify]). }
  destruct (charData s c) as [c1 [[]|e| |]]; cbn [fst snd] in *; [exact (inv_sm _ _ _ _ _ _ K' Hc)|discriminate..|congruence].
Qed.
Lemma stream_ends toks : forall d g n gr c, descending rank (stream_refs d g n gr toks) -> inv d g n gr c ->
  snd (mapM (stepToken fuel) toks c) <> NoFuel.
Proof.
  induction toks as [|t toks IH]; intros d g n gr c Hd Hc; [discriminate|]. cbn [mapM]. unfold bind. destruct t as [name attrs|name|s|]; cbn [stream_refs] in Hd.
  - pose proof (start_tri name attrs d g n gr c Hc) as K. destruct (stepToken fuel (TStart name attrs) c) as [c1 [[]|e| |]]; try discriminate; [|exact K].
    destruct (is_gradient name); [exact (IH _ _ _ _ _ Hd K)|].
    destruct (d && negb g).
    { apply descending_app in Hd as [H1 H2]. apply (IH _ _ _ _ _ H2), K. intros Hu x Hx. rewrite Hu in H1. apply H1. left. f_equal. exact Hx. }
    destruct (String.eqb name "defs"); [exact (IH _ _ _ _ _ Hd K)|].
    destruct (String.eqb name "use" && n); [|exact (IH _ _ _ _ _ Hd K)].
    apply descending_app in Hd as [H1 H2]. destruct K as [K|K]; [exact (IH _ _ _ _ _ H1 K)|exact (IH _ _ _ _ _ H2 K)].
  - pose proof (end_tri name d g n gr c Hc) as K. destruct (stepToken fuel (TEnd name) c) as [c1 [[]|e| |]]; try discriminate; [|exact K].
    destruct (is_gradient name); [exact (IH _ _ _ _ _ Hd K)|]. destruct (String.eqb name "defs"); exact (IH _ _ _ _ _ Hd K).
  - pose proof (chars_tri s d g n gr c Hc) as K. destruct (stepToken fuel (TChar s) c) as [c1 [[]|e| |]]; try discriminate; [|exact K]. exact (IH _ _ _ _ _ Hd K).
  - exact (IH _ _ _ _ _ Hd Hc).
Qed.
Lemma inv_start mode : inv false false false "" (cursor0 (E := E) mode).
Proof. repeat split; try constructor. intros id ds H. discriminate H. Qed.
End Stream.

Theorem streams_end {E : Env} (k fuel : nat) mode (toks : list token) tm :
  turns (E := E) k -> acyclic (all_refs toks) -> List.length (all_refs toks) + k + 2 <= fuel -> parse (E := E) fuel mode toks tm <> PNoFuel.
Proof.
  intros Ht Ha Hf. set (refs := all_refs toks) in *.
  assert (Hr : forall x, height refs x + k + 1 < fuel). { intros x. pose proof (height_bound refs Ha x). lia. }
  pose proof (stream_ends (height refs) k fuel Ht Hr toks false false false "" (cursor0 (E := E) mode) (height_descending refs Ha) (inv_start (height refs) mode)) as K.
  unfold parse. destruct (mapM (stepToken fuel) toks (cursor0 mode)) as [c [[]|e| |]]; try discriminate; [destruct tm; [destruct (seenTag toks)|]; discriminate|cbn in K; congruence].
Qed.
Theorem streams_end_F64 O (fuel : nat) mode (toks : list token) tm :
  angles O -> acyclic (all_refs toks) -> List.length (all_refs toks) + 3 <= fuel -> parse (E := F64 O) fuel mode toks tm <> PNoFuel.
Proof. intros Ha Hc Hf. apply (streams_end 1 fuel mode toks tm (ProofsAngle.turns_F64 O Ha) Hc). lia. Qed.

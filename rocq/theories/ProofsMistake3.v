(** * ProofsMistake3: what the tokens before an element leave behind (C61) *)
From Coq Require Import ZArith Lia.
From Verif Require Export ProofsMistake2.
From Verif Require Import ProofsMode ProofsSpell ProofsStyle ProofsColor ProofsUnit ProofsTok ProofsPath4 ProofsWho ProofsFlags Triples.
Local Open Scope go_scope.

Section W.
Context {E : Env}.
Notation cursor := (cursor E).

(** ** What drawing leaves alone *)
Definition wk (c c' : cursor) : Prop :=
  c_inDefs c' = c_inDefs c /\ c_inGrad c' = c_inGrad c /\ sv_defs (c_svg c') = sv_defs (c_svg c) /\ c_curDef c' = c_curDef c.
Lemma wk_refl c : wk c c. Proof. unfold wk. auto. Qed.
Lemma wk_trans a b c : wk a b -> wk b c -> wk a c. Proof. unfold wk. intuition congruence. Qed.
Ltac wk := intros; split; [reflexivity|split; [reflexivity|split; reflexivity]].
Lemma wk_push l : keeps wk (pushStyle (E := E) l).
Proof. apply (kp_pushStyle wk wk_refl wk_trans); wk. Qed.
Lemma wk_pop : keeps wk (popStyle (E := E)).
Proof. intros c. unfold popStyle. destruct (c_stack c); wk. Qed.
Lemma wk_handle s : keeps wk (handleError (E := E) s). Proof. apply (kp_handleError wk wk_refl wk_trans). wk. Qed.
Lemma wk_onGrad f : keeps wk (onGrad (E := E) f).
Proof. intros c. unfold onGrad. destruct (c_grad c) as [p|]; [|apply wk_refl]. destruct (nth_error (c_gheap c) p); [|apply wk_refl]. wk. Qed.
Lemma wk_stop attrs : keeps wk (stopF (E := E) attrs).
Proof.
  unfold stopF. apply (keeps_bind _ wk_trans); [apply (keeps_gets _ wk_refl)|]. intros b. apply keeps_if; [|apply (keeps_ret _ wk_refl)].
  apply (keeps_bind _ wk_trans). { apply (keeps_foldM _ wk_refl wk_trans). intros l a. apply (kp_stopAttr _ wk_refl wk_trans). }
  intros s. apply wk_onGrad.
Qed.
Definition calm (t : string) : bool := negb (String.eqb t "defs") && negb (gradient_name t).
Lemma wk_draw fuel name df l : drawFunc (E := E) fuel name = Some df -> calm name = true -> keeps wk (df l).
Proof.
  unfold drawFunc, calm, gradient_name. intros H Hn.
  repeat match type of H with (if String.eqb name ?n then _ else _) = _ => destruct (String.eqb_spec name n) as [->|_]; [injection H as <-|] end; try discriminate.
  - apply (kp_svgF wk wk_refl wk_trans); wk.
  - intros c. apply wk_refl.
  - apply (kp_lineF wk wk_refl wk_trans); wk.
  - apply wk_stop.
  - apply (kp_rectF wk wk_refl wk_trans); wk.
  - apply (kp_circleF wk wk_refl wk_trans); wk.
  - apply (kp_circleF wk wk_refl wk_trans); wk.
  - apply (kp_polylineF wk wk_refl wk_trans); wk.
  - apply (kp_polygonF wk wk_refl wk_trans); wk.
  - apply (kp_pathF wk wk_refl wk_trans); wk.
  - intros c. wk.
  - intros c. wk.
  - apply (kp_maskF wk wk_refl wk_trans); wk.
Qed.
Definition calm_defs (m : smap (list definition)) : Prop := Forall (fun e => Forall (fun d => calm (d_tag d) = true) (snd e)) m.
Section Use.
Context (c0 : cursor) (H0 : calm_defs (sv_defs (c_svg c0))).
Notation inv m := (tri (wk c0) m (fun _ => wk c0) (fun _ => wk c0)).
Lemma inv_wk {A} (m : @C E A) : keeps wk m -> inv m.
Proof. intros H. apply (tri_keeps wk); [exact H|]. intros s t H1 H2. eapply wk_trans; eassumption. Qed.
Lemma wk_useLoop draw ds : Forall (fun d => calm (d_tag d) = true) ds -> (forall t df attrs, draw t = Some df -> calm t = true -> inv (df attrs)) -> inv (useLoop draw ds).
Proof.
  intros Hd Hdraw. induction Hd as [|d ds Hd Hds IH]; cbn [useLoop]; [apply tri_ret; auto|].
  apply tri_if. { eapply tri_bind; [apply inv_wk, wk_pop|]. intros []. apply IH. }
  eapply tri_bind; [apply inv_wk, wk_push|]. intros u1. destruct (draw (d_tag d)) as [df|] eqn:Hdf; [|apply inv_wk, wk_handle].
  eapply tri_bind; [eapply Hdraw; eassumption|]. intros u2.
  eapply tri_bind; [apply inv_wk, keeps_if; [apply wk_pop|apply (keeps_ret _ wk_refl)]|]. intros u3. apply IH.
Qed.
Lemma wk_useF fuel : forall attrs, inv (useF fuel attrs).
Proof.
  induction fuel as [|fuel IH]; intros attrs; cbn [useF]; [apply tri_nofuel; auto|].
  eapply tri_bind; [apply inv_wk, (kp_foldM _ wk_refl wk_trans); intros; apply (kp_useAttr _ wk_refl wk_trans)|]. intros [[href x] y].
  eapply tri_bind; [apply inv_wk, keeps_modify; wk|]. intros u1.
  eapply (tri_deferred _ _ _ (fun _ => wk c0) _ (fun _ => wk c0)); [|intros; eapply wk_trans; [eassumption|wk]..].
  apply tri_if; [apply tri_raise; auto|]. apply tri_if; [apply tri_raise; auto|].
  eapply tri_bind; [apply inv_wk, (keeps_lift _ wk_refl)|]. intros id.
  eapply (tri_bind _ _ _ (fun ds c => wk c0 c /\ ds = sv_defs (c_svg c))); [apply tri_gets; auto|]. intros defs.
  destruct (mget id defs) as [ds|] eqn:Hg; [|apply tri_raise; intros s [H _]; exact H].
  intros c [Hc ->].
  assert (K : Forall (fun d => calm (d_tag d) = true) ds -> inv (useLoop (fun tag => if String.eqb tag "use" then Some (useF fuel) else drawFunc fuel tag) ds)).
  { intros Ht. apply wk_useLoop; [exact Ht|]. intros t df at' Hdf Hs. destruct (String.eqb t "use"); [injection Hdf as <-; apply IH|].
    apply inv_wk. eapply wk_draw; eassumption. }
  apply K; [|exact Hc]. pose proof Hc as (_ & _ & Hc' & _). rewrite Hc' in Hg.
  exact (mget_forall (fun ds => Forall (fun d => calm (d_tag d) = true) ds) _ _ _ H0 Hg).
Qed.
End Use.
Lemma wk_collect (c c' : cursor) : collectPath c = (c', Ret tt) -> wk c c'.
Proof.
  unfold collectPath, bind, gets. destruct (pc_path (c_pc c)) eqn:Hp.
  { intros H. injection H as <-. apply wk_refl. }
  destruct (c_inMask c).
  - destruct (c_mask c) as [m|].
    + unfold topStyle. destruct (c_stack c); [discriminate|]. cbn. intros H. injection H as <-. wk.
    + cbn. intros H. injection H as <-. wk.
  - unfold topStyle. destruct (c_stack c); [discriminate|]. cbn. intros H. injection H as <-. wk.
Qed.

(** ** Where an element is *)
Record where_ (pre : list token) (c : cursor) : Prop := mkWhere {
  w_defs : c_inDefs c = open_defs pre;
  w_grad : c_inGrad c = open_gradient pre;
  w_calm : calm_defs (sv_defs (c_svg c));
  w_ids : Forall (fun e => fst e = ""%string \/ defines pre (fst e)) (sv_defs (c_svg c));
  w_cur : Forall (fun d => calm (d_tag d) = true /\ (d_id d = ""%string \/ defines pre (d_id d))) (c_curDef c) }.
Lemma defines_more pre t id : defines pre id -> defines (pre ++ [t]) id.
Proof.
  intros (p & name & attrs & q & -> & H1 & H2). exists p, name, attrs, (q ++ [t]). rewrite <- app_assoc. cbn. auto.
Qed.
Lemma more_id pre t s : (s = ""%string \/ defines pre s) -> s = ""%string \/ defines (pre ++ [t]) s.
Proof. intros [H|H]; [left; exact H|right; apply defines_more, H]. Qed.
Lemma open_defs_app pre t : open_defs (pre ++ [t]) = match t with
  | TStart name _ => open_defs pre || String.eqb name "defs" | TEnd name => open_defs pre && negb (String.eqb name "defs") | _ => open_defs pre end.
Proof. unfold open_defs. rewrite fold_left_app. cbn [fold_left]. reflexivity. Qed.
Lemma open_grad_app pre t : open_gradient (pre ++ [t]) = match t with
  | TStart name _ => open_gradient pre || gradient_name name | TEnd name => open_gradient pre && negb (gradient_name name) | _ => open_gradient pre end.
Proof. unfold open_gradient. rewrite fold_left_app. cbn [fold_left]. reflexivity. Qed.
(** the state is kept but for the flags *)
Lemma where_step pre t (c c' : cursor) : where_ pre c -> sv_defs (c_svg c') = sv_defs (c_svg c) -> c_curDef c' = c_curDef c ->
  c_inDefs c' = open_defs (pre ++ [t]) -> c_inGrad c' = open_gradient (pre ++ [t]) -> where_ (pre ++ [t]) c'.
Proof.
  intros [W1 W2 W3 W4 W5] H1 H2 H3 H4. constructor; [exact H3|exact H4|rewrite H1; exact W3| |].
  - rewrite H1. eapply Forall_impl; [|exact W4]. intros e. apply more_id.
  - rewrite H2. eapply Forall_impl; [|exact W5]. intros d [K1 K2]. split; [exact K1|]. apply more_id, K2.
Qed.
Lemma attrID_last attrs : forall s, fold_left (fun id a => if is a "id" then a_val a else id) attrs s = lasts "id" s attrs.
Proof.
  induction attrs as [|a attrs IH]; intros s; [reflexivity|]. cbn [fold_left]. rewrite IH, lasts_cons. unfold is. reflexivity.
Qed.
(** definitions collected so far are stored *)
Definition stored (pre : list token) (c : cursor) : Prop :=
  calm_defs (sv_defs (c_svg c)) /\ Forall (fun e => fst e = ""%string \/ defines pre (fst e)) (sv_defs (c_svg c))
  /\ Forall (fun d => calm (d_tag d) = true /\ (d_id d = ""%string \/ defines pre (d_id d))) (c_curDef c).
Lemma flush_stored pre (c c' : cursor) : stored pre c -> flushDefs (E := E) c = (c', Ret tt) -> stored pre c' /\ c_inDefs c' = c_inDefs c /\ c_inGrad c' = c_inGrad c.
Proof.
  intros (W3 & W4 & W5) H. unfold flushDefs, modify in H. injection H as <-. destruct (c_curDef c) as [|d l] eqn:Hc; [unfold stored; rewrite Hc; auto|].
  cbn. repeat split; cbn; [| |constructor].
  - unfold calm_defs. apply (mput_forall (fun ds => Forall (fun d => calm (d_tag d) = true) ds)); [|exact W3]. rewrite Forall_forall in W5 |- *. intros x Hx. apply W5, Hx.
  - unfold mput. constructor; [cbn; inversion W5; subst; tauto|]. rewrite Forall_forall in W4 |- *. intros e He. apply filter_In in He. apply W4, He.
Qed.
Lemma where_start fuel pre name attrs (c c' : cursor) : where_ pre c -> (name = "defs"%string -> is_definition pre "defs" = false) ->
  readStartElement fuel name attrs c = (c', Ret tt) -> where_ (pre ++ [TStart name attrs]) c'.
Proof.
  intros W Hf. rewrite start_cases, (w_defs _ _ W), (w_grad _ _ W).
  replace (String.eqb name "radialGradient" || String.eqb name "linearGradient" || open_gradient pre) with (gradient_name name || open_gradient pre)
    by (unfold gradient_name; f_equal; apply orb_comm).
  rewrite negb_orb, andb_assoc. fold (is_definition pre name). destruct (is_definition pre name) eqn:Hd.
  - assert (Hod : open_defs pre = true) by (unfold is_definition in Hd; apply andb_prop in Hd as [Hd _]; apply andb_prop in Hd; apply Hd).
    assert (Hog : open_gradient pre = false /\ gradient_name name = false)
      by (unfold is_definition in Hd; apply andb_prop in Hd as [Hd K]; apply negb_true_iff in K; apply andb_prop in Hd as [_ Hd]; apply negb_true_iff in Hd; auto).
    intros H. apply bindC in H as (c1 & u & H1 & H2). destruct u.
    assert (K : stored pre c1 /\ c_inDefs c1 = c_inDefs c /\ c_inGrad c1 = c_inGrad c).
    { destruct (negb _) eqn:Hid; [|injection H1 as <-; destruct W; unfold stored; auto]. eapply flush_stored; [|exact H1]. destruct W; unfold stored; auto. }
    destruct K as ((K1 & K2 & K3) & K4 & K5). unfold addDef, modify in H2. injection H2 as <-. constructor; cbn.
    + rewrite K4, (w_defs _ _ W), open_defs_app, Hod. reflexivity.
    + rewrite K5, (w_grad _ _ W), open_grad_app. destruct Hog as [-> ->]. reflexivity.
    + exact K1.
    + eapply Forall_impl; [|exact K2]. intros e. apply more_id.
    + apply Forall_app. split; [eapply Forall_impl; [|exact K3]; intros d [Q1 Q2]; split; [exact Q1|apply more_id, Q2]|].
      constructor; [|constructor]. cbn. split.
      * unfold calm. destruct Hog as [_ ->]. destruct (String.eqb_spec name "defs") as [->|]; [rewrite (Hf eq_refl) in Hd; discriminate|reflexivity].
      * unfold attrID. rewrite attrID_last. unfold lasts. destruct (last_attr "id" attrs) as [v|] eqn:Hv; [|left; reflexivity].
        right. exists pre, name, attrs, []. auto.
  - assert (Hcase : calm name = true \/ calm name = false) by (destruct (calm name); auto).
    assert (K : forall c1, wk c c1 -> calm name = true -> where_ (pre ++ [TStart name attrs]) c1).
    { intros c1 (Q1 & Q2 & Q3 & Q4) Hc. unfold calm in Hc. apply andb_prop in Hc as [C1 C2]. apply negb_true_iff in C1, C2.
      eapply where_step; [exact W|exact Q3|exact Q4| |].
      - rewrite Q1, (w_defs _ _ W), open_defs_app, C1, orb_false_r. reflexivity.
      - rewrite Q2, (w_grad _ _ W), open_grad_app, C2, orb_false_r. reflexivity. }
    destruct (drawFuncs fuel name) as [df|] eqn:Hdf.
    2:{ intros H. pose proof (wk_handle (cannotProcess name) c) as Q. rewrite H in Q. cbn [fst] in Q. apply K; [exact Q|].
        unfold calm, gradient_name. unfold drawFuncs, drawFunc in Hdf. destruct (String.eqb_spec name "defs") as [->|]; [discriminate|].
        destruct (String.eqb_spec name "linearGradient") as [->|]; [discriminate|]. destruct (String.eqb_spec name "radialGradient") as [->|]; [discriminate|]. reflexivity. }
    intros H. apply bindC in H as (c1 & err & H1 & H). apply bindC in H as (c2 & u & H2 & H3). destruct u. destruct err as [e|]; [discriminate|]. injection H3 as <-.
    unfold attempt in H1. destruct (df attrs c) as [c3 [[]|e| |]] eqn:Hdr; try discriminate H1. injection H1 as <-. apply wk_collect in H2.
    destruct Hcase as [Hc|Hc].
    + apply K; [|exact Hc]. eapply wk_trans; [|exact H2]. unfold drawFuncs in Hdf. destruct (String.eqb name "use").
      * injection Hdf as <-. pose proof (wk_useF c (w_calm _ _ W) fuel attrs c (wk_refl c)) as Q. rewrite Hdr in Q. exact Q.
      * pose proof (wk_draw fuel name df attrs Hdf Hc c) as Q. rewrite Hdr in Q. exact Q.
    + destruct H2 as (Q1 & Q2 & Q3 & Q4). unfold calm in Hc.
      destruct (String.eqb_spec name "defs") as [->|Nd].
      * injection Hdf as <-. unfold defsF, modify in Hdr. injection Hdr as <-. cbn in Q1, Q2, Q3, Q4.
        eapply where_step; [exact W|exact Q3|exact Q4| |].
        -- rewrite Q1, open_defs_app, orb_true_r. reflexivity.
        -- rewrite Q2, (w_grad _ _ W), open_grad_app. cbn. rewrite orb_false_r. reflexivity.
      * cbn [negb andb] in Hc. apply negb_false_iff in Hc.
        assert (Hg : df attrs = linearGradientF attrs \/ df attrs = radialGradientF attrs).
        { unfold gradient_name in Hc. apply orb_prop in Hc as [Hc|Hc]; apply String.eqb_eq in Hc; subst name; injection Hdf as <-; auto. }
        assert (Hk : fkeep c c3).
        { assert (Hdf' : drawFunc fuel name = Some df).
          { unfold drawFuncs in Hdf. destruct (String.eqb_spec name "use") as [->|]; [discriminate|exact Hdf]. }
          pose proof (fk_draw fuel name df attrs Hdf' Nd c) as Q. rewrite Hdr in Q. exact Q. }
        pose proof (gradient_sets attrs (df attrs) Hg c I) as Hs. rewrite Hdr in Hs. destruct Hk as (F1 & F2 & F3).
        eapply where_step; [exact W|congruence|congruence| |].
        -- apply String.eqb_neq in Nd. rewrite Q1, F1, (w_defs _ _ W), open_defs_app, Nd, orb_false_r. reflexivity.
        -- rewrite Q2, Hs, open_grad_app, Hc, orb_true_r. reflexivity.
Qed.
Lemma where_end pre name (c c' : cursor) : where_ pre c -> endElement name c = (c', Ret tt) -> where_ (pre ++ [TEnd name]) c'.
Proof.
  intros W H. unfold endElement in H. apply bindC in H as (c1 & u & H1 & H). destruct u.
  assert (Q : wk c c1) by (pose proof (wk_pop c) as Q; rewrite H1 in Q; exact Q). destruct Q as (Q1 & Q2 & Q3 & Q4).
  assert (Hod : open_defs (pre ++ [TEnd name]) = c_inDefs c1 && negb (String.eqb name "defs")) by (rewrite open_defs_app, Q1, (w_defs _ _ W); reflexivity).
  assert (Hog : open_gradient (pre ++ [TEnd name]) = c_inGrad c1 && negb (gradient_name name)) by (rewrite open_grad_app, Q2, (w_grad _ _ W); reflexivity).
  assert (K : forall c2, wk c1 c2 -> String.eqb name "defs" = false -> gradient_name name = false -> where_ (pre ++ [TEnd name]) c2).
  { intros c2 (R1 & R2 & R3 & R4) N1 N2. eapply where_step; [exact W|congruence|congruence| |].
    - rewrite Hod, N1, R1, andb_true_r. reflexivity. - rewrite Hog, N2, R2, andb_true_r. reflexivity. }
  destruct (String.eqb_spec name "g") as [->|Ng].
  { unfold bind, gets in H. destruct (c_inDefs c1) eqn:Hi; [|injection H as <-; apply K; [wk|reflexivity|reflexivity]].
    unfold addDef, modify in H. injection H as <-. constructor; cbn.
    - rewrite Hod, ?Hi. reflexivity. - rewrite Hog. cbn. rewrite andb_true_r. reflexivity.
    - rewrite Q3. apply W. - rewrite Q3. eapply Forall_impl; [|apply (w_ids _ _ W)]. intros e. apply more_id.
    - apply Forall_app. split; [|constructor; [split; [reflexivity|left; reflexivity]|constructor]]. rewrite Q4. eapply Forall_impl; [|apply (w_cur _ _ W)].
      intros d [K1 K2]. split; [exact K1|apply more_id, K2]. }
  destruct (String.eqb_spec name "mask") as [->|Nm].
  { apply K; [|reflexivity|reflexivity]. unfold bind, gets in H. destruct (c_mask c1); cbn in H; injection H as <-; wk. }
  destruct (String.eqb_spec name "title") as [->|Nt]. { injection H as <-. apply K; [wk|reflexivity|reflexivity]. }
  destruct (String.eqb_spec name "desc") as [->|Ns]. { injection H as <-. apply K; [wk|reflexivity|reflexivity]. }
  destruct (String.eqb_spec name "defs") as [->|Nd].
  { apply bindC in H as (c2 & u & H2 & H3). destruct u.
    assert (St : stored pre c1) by (unfold stored; rewrite Q3, Q4; destruct W; auto).
    destruct (flush_stored pre c1 c2 St H2) as ((S1 & S2 & S3) & S4 & S5). injection H3 as <-. constructor; cbn.
    - rewrite Hod, andb_false_r. reflexivity. - rewrite Hog. cbn. rewrite andb_true_r. exact S5.
    - exact S1. - eapply Forall_impl; [|exact S2]. intros e. apply more_id.
    - eapply Forall_impl; [|exact S3]. intros d [K1 K2]. split; [exact K1|apply more_id, K2]. }
  destruct (String.eqb name "radialGradient" || String.eqb name "linearGradient") eqn:Hg.
  - injection H as <-. eapply where_step; [exact W|cbn; congruence|cbn; congruence| |].
    + cbn. rewrite Hod, andb_true_r. reflexivity. + cbn. rewrite Hog. unfold gradient_name. rewrite orb_comm, Hg, andb_false_r. reflexivity.
  - injection H as <-. apply K; [wk|reflexivity|]. unfold gradient_name. rewrite orb_comm. exact Hg.
Qed.
Lemma where_char pre s (c c' : cursor) : where_ pre c -> charData s c = (c', Ret tt) -> where_ (pre ++ [TChar s]) c'.
Proof.
  intros W H. assert (K : wk c c').
  { unfold charData in H. unfold bind, gets in H. destruct (c_inTitle c).
    - unfold lift in H. destruct (appendLast (sv_titles (c_svg c)) s); try discriminate. unfold onSvg, modify in H. destruct (c_inDesc c).
      + destruct (appendLast _ s); try discriminate. injection H as <-. wk.
      + injection H as <-. wk.
    - cbn in H. destruct (c_inDesc c).
      + unfold lift in H. destruct (appendLast _ s); try discriminate. injection H as <-. wk.
      + injection H as <-. wk. }
  destruct K as (Q1 & Q2 & Q3 & Q4). eapply where_step; [exact W|exact Q3|exact Q4| |].
  - rewrite open_defs_app, Q1. apply W. - rewrite open_grad_app, Q2. apply W.
Qed.
Lemma where_push pre attrs (c c' : cursor) : where_ pre c -> pushStyle attrs c = (c', Ret tt) -> where_ pre c'.
Proof.
  intros W H. pose proof (wk_push attrs c) as Q. rewrite H in Q. cbn [fst] in Q. destruct Q as (Q1 & Q2 & Q3 & Q4). destruct W. constructor; rewrite ?Q1, ?Q2, ?Q3, ?Q4; assumption.
Qed.
Lemma where_token fuel pre t (c c' : cursor) : where_ pre c -> (forall attrs, t = TStart "defs" attrs -> is_definition pre "defs" = false) ->
  stepToken fuel t c = (c', Ret tt) -> where_ (pre ++ [t]) c'.
Proof.
  intros W Hf H. destruct t as [name attrs|name|s|]; cbn [stepToken] in H.
  - apply bindC in H as (c1 & [] & H1 & H2). eapply where_start; [eapply where_push; eassumption| |exact H2]. intros ->. apply (Hf attrs eq_refl).
  - eapply where_end; eassumption. - eapply where_char; eassumption.
  - injection H as <-. eapply where_step; [exact W|reflexivity|reflexivity| |]; rewrite ?open_defs_app, ?open_grad_app; apply W.
Qed.
Lemma where_reached fuel mode pre : flat_defs pre -> forall c, mapM (stepToken fuel) pre (cursor0 mode) = (c, Ret tt) -> where_ pre c.
Proof.
  induction pre as [|t pre IH] using rev_ind; intros Hf c H.
  - injection H as <-. constructor; try reflexivity; constructor.
  - rewrite ProofsDoc.mapM_app in H. apply bindC in H as (c1 & [] & H1 & H2). cbn [mapM] in H2. apply bindC in H2 as (c2 & [] & H2 & H3). injection H3 as <-.
    eapply where_token; [apply IH; [|exact H1]| |exact H2].
    + intros p attrs q ->. apply (Hf p attrs (q ++ [t])). rewrite <- app_assoc. reflexivity.
    + intros attrs ->. apply (Hf pre attrs []). reflexivity.
Qed.
(** ** Documents that are not accepted *)
Lemma not_accepted fuel mode pre t post tm :
  (forall c, mapM (stepToken (E := E) fuel) pre (cursor0 mode) = (c, Ret tt) -> forall c', stepToken fuel t c <> (c', Ret tt)) ->
  forall s log, parse (E := E) fuel mode (pre ++ t :: post) tm <> PSvg s None log.
Proof.
  intros H s log. unfold parse. rewrite ProofsDoc.mapM_app. unfold bind. destruct (mapM (stepToken fuel) pre (cursor0 mode)) as [c [[]|e| |]] eqn:H1; try discriminate.
  cbn [mapM]. unfold bind. destruct (stepToken fuel t c) as [c' [[]|e| |]] eqn:H2; try discriminate. exfalso. exact (H c eq_refl c' H2).
Qed.
(** ** Strict mode *)
Definition strict (c : cursor) : Prop := pc_mode (c_pc c) = StrictErrorMode.
Lemma strict_Rc (c : cursor) : strict c -> Rc StrictErrorMode StrictErrorMode false c c.
Proof.
  intros H. exists (c_pc c). split; [|destruct c; reflexivity]. split; [exact H|]. exists (pc_log (c_pc c)). destruct c as [[]]. cbn in *. unfold strict in H. cbn in H. subst. split; [reflexivity|discriminate].
Qed.
Lemma kept_strict {A} (m : @C E A) : ProofsMode.sim (Rc StrictErrorMode StrictErrorMode false) true m m -> kept strict m.
Proof.
  intros H c Hc c' a Hm. destruct (H c c (strict_Rc c Hc)) as [[_ (p & (K & _) & _)]|[_ K]]; rewrite Hm in K; [exact K|]. destruct (K a eq_refl).
Qed.
Notation smc m := (ProofsMode.sim (Rc StrictErrorMode StrictErrorMode false) true m m).
Lemma strict_reached fuel pre (c : cursor) : mapM (stepToken fuel) pre (cursor0 StrictErrorMode) = (c, Ret tt) -> strict c.
Proof.
  apply (kept_strict (mapM (stepToken fuel) pre)); [|reflexivity]. apply sc_tokens. left. auto.
Qed.
Lemma strict_raises msg : fails strict (handleError (E := E) msg).
Proof. intros c Hc c' a. unfold handleError, bind, gets. rewrite Hc. discriminate. Qed.
Lemma fl_keyword k v st : bad_keyword k v -> fails strict (readStyleAttr (E := E) st k v).
Proof.
  intros (ws & Hk & Hv). cbn in Hk.
  destruct Hk as [Hk|[Hk|[Hk|[Hk|[Hk|[]]]]]]; injection Hk as <- <-; unfold readStyleAttr; cbn [String.eqb Ascii.eqb Bool.eqb].
  - destruct (String.eqb_spec v "evenodd") as [->|_]; [cbn in Hv; tauto|]. destruct (String.eqb_spec v "nonzero") as [->|_]; [cbn in Hv; tauto|]. apply fl_bind_l, strict_raises.
  - unfold capOf. repeat match goal with |- context [String.eqb v ?x] => destruct (String.eqb_spec v x) as [->|_]; [cbn in Hv; tauto|] end. apply fl_bind_l, strict_raises.
  - unfold capOf. repeat match goal with |- context [String.eqb v ?x] => destruct (String.eqb_spec v x) as [->|_]; [cbn in Hv; tauto|] end. apply fl_bind_l, strict_raises.
  - unfold gapOf. repeat match goal with |- context [String.eqb v ?x] => destruct (String.eqb_spec v x) as [->|_]; [cbn in Hv; tauto|] end. apply fl_bind_l, strict_raises.
  - unfold joinOf. repeat match goal with |- context [String.eqb v ?x] => destruct (String.eqb_spec v x) as [->|_]; [cbn in Hv; tauto|] end. apply fl_bind_l, strict_raises.
Qed.

(** ** The theorems *)
(** an element that is drawn, with a mistake *)
Lemma start_fails fuel mode pre name attrs post tm : flat_defs pre -> is_definition pre name = false ->
  (forall df c, drawFuncs fuel name = Some df -> where_ pre c -> forall c', df attrs c <> (c', Ret tt)) ->
  (forall c : cursor, drawFuncs (E := E) fuel name = None -> where_ pre c -> (mode = StrictErrorMode -> strict c) -> forall c', handleError (E := E) (cannotProcess name) c <> (c', Ret tt)) ->
  forall s log, parse (E := E) fuel mode (pre ++ TStart name attrs :: post) tm <> PSvg s None log.
Proof.
  intros Hf Hd Hx Hn. apply not_accepted. intros c Hc c' H. pose proof (where_reached fuel mode pre Hf c Hc) as W. cbn [stepToken] in H.
  apply bindC in H as (c1 & [] & H1 & H2). pose proof (where_push pre attrs c c1 W H1) as W1. rewrite start_cases, (w_defs _ _ W1), (w_grad _ _ W1) in H2.
  replace (String.eqb name "radialGradient" || String.eqb name "linearGradient" || open_gradient pre) with (gradient_name name || open_gradient pre) in H2
    by (unfold gradient_name; f_equal; apply orb_comm).
  rewrite negb_orb, andb_assoc in H2. fold (is_definition pre name) in H2. rewrite Hd in H2. destruct (drawFuncs fuel name) as [df|] eqn:Hdf.
  - apply bindC in H2 as (c2 & err & K1 & H2). apply bindC in H2 as (c3 & [] & K2 & H3). destruct err; [discriminate|].
    unfold attempt in K1. destruct (df attrs c1) as [c4 [[]|e| |]] eqn:Hr; try discriminate K1. exact (Hx df c1 eq_refl W1 c4 Hr).
  - apply (Hn c1 eq_refl W1) with c'; [|exact H2]. intros ->. eapply (kept_strict (pushStyle attrs)); [apply sc_pushStyle; left; auto| |exact H1].
    eapply strict_reached; exact Hc.
Qed.
Lemma known_name fuel name : drawFuncs (E := E) fuel name = None <-> ~ List.In name svg_names.
Proof.
  unfold drawFuncs, drawFunc. split.
  - intros H Hi. cbn in Hi. repeat (destruct Hi as [Hn|Hi]; [subst name; discriminate H|]). destruct Hi.
  - intros H. repeat match goal with |- context [String.eqb name ?x] => destruct (String.eqb_spec name x) as [->|_]; [destruct H; cbn; tauto|] end. reflexivity.
Qed.
Lemma bad_known name attrs : bad_element E name attrs -> List.In name svg_names.
Proof.
  intros H. destruct H as [name attrs n v Hn Hi Hv|name attrs n v Hn Hi Hv|attrs v xs Hi Hs Hl|name attrs v xs Hn Hi Hs Hl|name attrs v Hn Hi Hv|attrs Hi|attrs Hi|attrs v Hi Hv];
    try (cbn; tauto).
  - unfold lengths_of in Hn. cbn [List.find fst] in Hn.
    repeat match type of Hn with context [String.eqb name ?x] => destruct (String.eqb_spec name x) as [->|_]; [cbn; tauto|] end. destruct Hn.
  - unfold coordinates_of in Hn. cbn [List.find fst] in Hn.
    repeat match type of Hn with context [String.eqb name ?x] => destruct (String.eqb_spec name x) as [->|_]; [cbn; tauto|] end. destruct Hn.
  - cbn. intuition congruence.
  - cbn. intuition congruence.
Qed.
Theorem bad_element_fails fuel mode pre name attrs post tm : flat_defs pre -> is_definition pre name = false -> bad_element E name attrs ->
  forall s log, parse (E := E) fuel mode (pre ++ TStart name attrs :: post) tm <> PSvg s None log.
Proof.
  intros Hf Hd Hb. apply start_fails; [exact Hf|exact Hd| |].
  - intros df c Hdf _ c'. exact (nv_element fuel name df attrs Hdf Hb c I c' tt).
  - intros c Hn. apply known_name in Hn. destruct (Hn (bad_known _ _ Hb)).
Qed.
Theorem bad_style_fails fuel mode pre name attrs post tm a ds k v : List.In a attrs -> attr_decls a ds -> List.In (k, v) ds -> bad_decl E k v ->
  forall s log, parse (E := E) fuel mode (pre ++ TStart name attrs :: post) tm <> PSvg s None log.
Proof.
  intros Ha Hd Hi Hb. apply not_accepted. intros c _ c' H. cbn [stepToken] in H. apply bindC in H as (c1 & [] & H1 & _). exact (nv_push a ds k v attrs Ha Hd Hi Hb c I c1 tt H1).
Qed.
Lemma unknown_id pre id (m : smap (list definition)) : id <> ""%string -> ~ defines pre id ->
  Forall (fun e => fst e = ""%string \/ defines pre (fst e)) m -> mget id m = None.
Proof.
  intros Hid Hn. induction 1 as [|[k l] m H _ IH]; [reflexivity|]. cbn [mget fst] in *.
  destruct (String.eqb_spec id k) as [->|]; [destruct H; [congruence|contradiction]|exact IH].
Qed.
Theorem unknown_use_fails fuel mode pre attrs id post tm : flat_defs pre -> is_definition pre "use" = false ->
  last_attr "href" attrs = Some (String "#" id) -> id <> ""%string -> ~ defines pre id ->
  forall s log, parse (E := E) fuel mode (pre ++ TStart "use" attrs :: post) tm <> PSvg s None log.
Proof.
  intros Hf Hd Hh Hid Hn. apply start_fails; [exact Hf|exact Hd| |discriminate].
  intros df c Hdf W c' H. injection Hdf as <-. destruct fuel as [|fuel]; cbn [useF] in H; [discriminate|]. apply bindC in H as (c1 & [[h x0] y0] & H1 & H2).
  pose proof (kp_foldM _ wk_refl wk_trans useAttr attrs (EmptyString, fnum E 0, fnum E 0) (kp_useAttr _ wk_refl wk_trans) c) as (_ & _ & Q & _). rewrite H1 in Q. cbn [fst] in Q.
  apply ProofsMistake2.use_fold in H1. cbn [fst] in H1. unfold lasts in H1. rewrite Hh in H1. subst h.
  apply bindC in H2 as (c2 & [] & H2 & H3). unfold modify in H2. injection H2 as <-. unfold deferred in H3.
  cbn [String.eqb] in H3. replace (hasPrefix (String "#" id) "#") with true in H3 by (destruct id; reflexivity). cbn [negb] in H3.
  replace (slice (String "#" id) 1 (String.length (String "#" id))) with (Ret id) in H3.
  2:{ unfold slice. cbn [String.length Nat.leb andb]. rewrite Nat.leb_refl. cbn [Nat.sub String.substring]. rewrite Nat.sub_0_r. f_equal. symmetry.
      rewrite <- (sapp_nil_r id) at 2. apply substring_app. }
  unfold bind, lift, gets in H3. cbn [c_svg c_set_pc] in H3. rewrite Q in H3.
  replace (mget id (sv_defs (c_svg c))) with (@None (list definition)) in H3; [discriminate|].
  symmetry. apply (unknown_id pre id _ Hid Hn), W.
Qed.
Theorem bad_path_fails (add_comm : forall a b, fadd E a b = fadd E b a) fuel mode pre attrs d post tm : flat_defs pre -> is_definition pre "path" = false ->
  List.In (mkAttr "d" d) attrs -> bad_path E d ->
  forall s log, parse (E := E) fuel mode (pre ++ TStart "path" attrs :: post) tm <> PSvg s None log.
Proof.
  intros Hf Hd Hi (lead & body & cs & k & sz & t & vs & rest & -> & H1 & H2 & H3 & H4 & H5 & H6 & H7). apply start_fails; [exact Hf|exact Hd| |discriminate].
  intros df c Hdf _ c' H. injection Hdf as <-. revert H. apply (fun m (Q : never m) => Q c I c' tt). unfold pathF.
  apply (fl_mapM _ _ (mkAttr "d" (lead ++ body ++ String k (t ++ rest))%string)); [intros; apply kept_any| |exact Hi].
  intros c0 _ c1 x. unfold is. cbn [a_name a_val String.eqb Ascii.eqb Bool.eqb]. unfold liftP.
  destruct (compilePath_bad_count add_comm lead body cs k sz t vs rest (c_pc c0) H1 H2 H3 H4 H5 H6 H7) as (p & -> & _). discriminate.
Qed.
Theorem bad_stop_fails fuel mode pre attrs post tm : flat_defs pre -> open_gradient pre = true -> bad_stop E attrs ->
  forall s log, parse (E := E) fuel mode (pre ++ TStart "stop" attrs :: post) tm <> PSvg s None log.
Proof.
  intros Hf Hg Hb. apply start_fails; [exact Hf| | |discriminate].
  - unfold is_definition. rewrite Hg. apply andb_false_r.
  - intros df c Hdf W c' H. injection Hdf as <-. apply (fl_stop attrs Hb c) with c' tt; [|exact H]. rewrite (w_grad _ _ W). exact Hg.
Qed.
Theorem unknown_element_fails fuel pre name attrs post tm : flat_defs pre -> is_definition pre name = false -> ~ List.In name svg_names ->
  forall s log, parse (E := E) fuel StrictErrorMode (pre ++ TStart name attrs :: post) tm <> PSvg s None log.
Proof.
  intros Hf Hd Hn. pose proof (proj2 (known_name fuel name) Hn) as Hk. apply start_fails; [exact Hf|exact Hd| |].
  - intros df c Hdf. congruence.
  - intros c _ _ Hs c'. exact (strict_raises _ c (Hs eq_refl) c' tt).
Qed.
Theorem bad_keyword_fails fuel pre name attrs post tm a ds k v : List.In a attrs -> attr_decls a ds -> List.In (k, v) ds -> bad_keyword k v ->
  forall s log, parse (E := E) fuel StrictErrorMode (pre ++ TStart name attrs :: post) tm <> PSvg s None log.
Proof.
  intros Ha Hd Hi Hb. apply not_accepted. intros c Hc c' H. apply strict_reached in Hc. cbn [stepToken] in H. apply bindC in H as (c1 & [] & H1 & _).
  revert H1. apply (fl_push strict a ds k v attrs); try assumption.
  - intros st p. apply kept_strict, sc_stylePair. left. auto.
  - intros st k0 v0. apply kept_strict, sc_readStyleAttr. left. auto.
  - intros st. apply fl_keyword, Hb.
Qed.
End W.

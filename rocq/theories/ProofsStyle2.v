(** * ProofsStyle2: colours as attributes, opacity along a chain of elements, panics *)
From Coq Require Import Lia.
From Verif Require Export ProofsStyle.
Local Open Scope go_scope.

Ltac fin := unfold ret; match goal with |- (?c, Ret ?a) = (_, Ret ?b) => replace b with a; [reflexivity|apply style_ext; intros []; reflexivity] end.

Section PS2.
Context {E : Env} (Hnames : name_table E).
Notation style := (style E).
Notation cursor := (cursor E).

Lemma fill_colour (st : style) (c : cursor) v p : colour E v p ->
  readStyleAttr st "fill" v c = (c, Ret (put_part FillPaint (paint E p) st)).
Proof.
  intros H. unfold readStyleAttr. cbn [String.eqb Ascii.eqb Bool.eqb].
  erewrite bind_step by (apply readGradURL_not, (colour_not_url v p Hnames H)). cbv beta iota.
  erewrite bind_step by (unfold lift; rewrite (parseSVGColor_colour E Hnames v p H); reflexivity).
  rewrite paint_asPattern. fin.
Qed.
Lemma stroke_colour (st : style) (c : cursor) v p : colour E v p ->
  readStyleAttr st "stroke" v c = (c, Ret (put_part StrokePaint (paint E p) st)).
Proof.
  intros H. unfold readStyleAttr. cbn [String.eqb Ascii.eqb Bool.eqb].
  erewrite bind_step by (apply readGradURL_not, (colour_not_url v p Hnames H)). cbv beta iota.
  erewrite bind_step by (unfold lift; rewrite (parseSVGColor_colour E Hnames v p H); reflexivity).
  rewrite paint_asPattern. fin.
Qed.
Lemma stop_colour (s : gradStop E) (c : cursor) v p : colour E v p ->
  stopAttr s (mkAttr "stop-color" v) c
  = (c, Ret (mkStop (match p with Some (r, g, b, a) => Some (CNRGBA r g b a) | None => None end) (stOffset s) (stOpacity s))).
Proof.
  intros H. unfold stopAttr, is. cbn [a_name a_val String.eqb Ascii.eqb Bool.eqb].
  erewrite bind_step by (unfold lift; rewrite (parseSVGColor_colour E Hnames v p H); reflexivity).
  destruct p as [(((? & ?) & ?) & ?)|]; reflexivity.
Qed.

Theorem hex_attrs (st : style) (c : cursor) (s : gradStop E) r1 r2 g1 g2 b1 b2 vr1 vr2 vg1 vg2 vb1 vb2 :
  hex_val r1 = Some vr1 -> hex_val r2 = Some vr2 -> hex_val g1 = Some vg1 -> hex_val g2 = Some vg2 ->
  hex_val b1 = Some vb1 -> hex_val b2 = Some vb2 ->
  let six := string_of_list_ascii ["#"%char; r1; r2; g1; g2; b1; b2] in
  let three := string_of_list_ascii ["#"%char; r1; g1; b1] in
  let rgb6 := (16 * vr1 + vr2, 16 * vg1 + vg2, 16 * vb1 + vb2)%Z in
  let rgb3 := (16 * vr1 + vr1, 16 * vg1 + vg1, 16 * vb1 + vb1)%Z in
  forall text rgb, (text, rgb) = (six, rgb6) \/ (text, rgb) = (three, rgb3) ->
  let '(r, g, b) := rgb in
  readStyleAttr st "fill" text c = (c, Ret (put_part FillPaint (Some (PPlain r g b 255)) st))
  /\ readStyleAttr st "stroke" text c = (c, Ret (put_part StrokePaint (Some (PPlain r g b 255)) st))
  /\ stopAttr s (mkAttr "stop-color" text) c = (c, Ret (mkStop (Some (CNRGBA r g b 255)) (stOffset s) (stOpacity s))).
Proof.
  intros R1 R2 G1 G2 B1 B2 six three rgb6 rgb3 text rgb H.
  assert (Hc : colour E text (let '(r, g, b) := rgb in Some (r, g, b, 255%Z))).
  { destruct H as [H|H]; injection H as -> ->.
    - apply (col_hex6 E); assumption.
    - unfold rgb3. replace (16 * vr1 + vr1)%Z with (17 * vr1)%Z by lia. replace (16 * vg1 + vg1)%Z with (17 * vg1)%Z by lia.
      replace (16 * vb1 + vb1)%Z with (17 * vb1)%Z by lia. apply (col_hex3 E); assumption. }
  destruct rgb as [[r g] b]. rewrite (fill_colour st c _ _ Hc), (stroke_colour st c _ _ Hc), (stop_colour s c _ _ Hc). auto.
Qed.

(** stroke settings *)
Theorem stroke_settings vb (st : style) (c : cursor) : sv_viewBox (c_svg c) = vb ->
  (forall v x, is_length E vb OfWidth v x -> readStyleAttr st "stroke-width" v c = (c, Ret (put_part StrokeWidth x st)))
  /\ (forall v x, is_length E vb OfDiagonal v x -> readStyleAttr st "stroke-dashoffset" v c = (c, Ret (put_part DashOffset x st)))
  /\ (forall v xs, v <> "none"%string -> dash_list E vb v xs -> readStyleAttr st "stroke-dasharray" v c = (c, Ret (put_part DashArray xs st)))
  /\ (forall v x, is_number E v x ->
       readStyleAttr st "stroke-miterlimit" v c = (c, Ret (put_part MiterLimit (f_to_i32 E (fmul E x (fnum E 64))) st)))
  /\ (forall v m, List.In (v, m) cap_words -> readStyleAttr st "stroke-linecap" v c = (c, Ret (put_part LineCap m st)))
  /\ (forall v m, List.In (v, m) cap_words -> readStyleAttr st "stroke-leadlinecap" v c = (c, Ret (put_part LeadLineCap m st)))
  /\ (forall v m, List.In (v, m) gap_words -> readStyleAttr st "stroke-linegap" v c = (c, Ret (put_part LineGap m st)))
  /\ (forall v m, List.In (v, m) join_words -> readStyleAttr st "stroke-linejoin" v c = (c, Ret (put_part LineJoin m st))).
Proof.
  intros Hvb.
  assert (Hlen : forall e s x, is_length E vb e s x -> forall k, bind (cParseUnit s (ref_of e)) k c = k x c :> (cursor * outcome style)).
  { intros e s x Hx kk. apply bind_step. unfold cParseUnit. rewrite Hvb. f_equal. exact (resolveUnit_length _ _ _ _ Hx). }
  repeat match goal with |- _ /\ _ => split end; intros v x H; unfold readStyleAttr; cbn [String.eqb Ascii.eqb Bool.eqb orb negb].
  - rewrite (Hlen OfWidth v x H). fin.
  - rewrite (Hlen OfDiagonal v x H). fin.
  - intros Hd. apply String.eqb_neq in H. rewrite H. cbn [negb].
    erewrite bind_step by (apply (dashes_ok vb); eassumption). fin.
  - erewrite bind_step by (unfold lift; rewrite (number_value v x H); reflexivity). fin.
  - rewrite (cap_word _ _ H). fin.
  - rewrite (cap_word _ _ H). fin.
  - rewrite (gap_word _ _ H). fin.
  - rewrite (join_word _ _ H). fin.
Qed.

(** texts that are no colour *)
Lemma not_a_colour v : all_chars is_ascii v = true -> v <> EmptyString ->
  hasPrefix (low_case v) "url" = false -> hasPrefix v "rgb(" = false -> hasPrefix v "#" = false ->
  low_case v <> "none"%string -> colorname E (low_case v) = None ->
  parseSVGColor (E := E) v = Err ErrParamMismatch.
Proof.
  intros Ha Hne Hu Hr Hh Hn Hc. unfold parseSVGColor. rewrite toLower_low, Hu by exact Ha.
  apply String.eqb_neq in Hn. rewrite Hn, Hc. unfold trimPrefix. rewrite Hr, String.eqb_refl. cbn [negb].
  destruct v as [|k v]; [congruence|]. cbn [byteat String.get obind].
  destruct (Ascii.eqb_spec k "#") as [->|Hk]; [|reflexivity]. cbn in Hh. rewrite prefix_nil in Hh. discriminate.
Qed.

(** ** panics of fill and stroke *)
Definition panic_text (s : string) : Prop :=
  s = EmptyString
  \/ (exists t, s = String "#" t /\ len t < 3)
  \/ (exists a b c e, s = ("rgb(" ++ a ++ "," ++ b ++ "," ++ c ++ e)%string
       /\ (e = "" \/ e = ")")%string /\ (a = "" \/ b = "" \/ c = "")%string).
(** every registered gradient pointer is valid *)
Definition grads_valid (c : cursor) : Prop := forall id p, mget id (sv_grads (c_svg c)) = Some p -> p < List.length (c_gheap c).
Lemma readGradURL_np v old (c : cursor) : grads_valid c -> exists o, readGradURL v old c = (c, Ret o).
Proof.
  intros Hv. unfold readGradURL. destruct (hasPrefix v "url(" && hasSuffix v ")") eqn:Hp; [|unfold ret; eauto].
  apply andb_prop in Hp as [Hp Hs]. apply prefix_iff in Hp as (r & ->). apply suffix_iff in Hs as (q & Hq).
  assert (Hr : exists u, r = (u ++ ")")%string).
  { assert (Hl : len ("url(" ++ r) = len (q ++ ")")) by (rewrite Hq; reflexivity). rewrite !len_app in Hl. cbn in Hl.
    destruct r as [|k r].
    - exfalso. assert (Hrev : rev_str "url(" = rev_str (q ++ ")")) by (rewrite <- Hq; reflexivity).
      rewrite rev_app in Hrev. discriminate.
    - assert (H : rev_str ("url(" ++ String k r) = rev_str (q ++ ")")) by (rewrite Hq; reflexivity).
      rewrite !rev_app in H. destruct (rev_nonempty (String k r)) as (x & y & Hx); [discriminate|].
      rewrite Hx in H. cbn in H. injection H as Hx' _. subst x.
      exists (rev_str y). rewrite <- (rev_rev (String k r)), Hx, rev_cons. reflexivity. }
  destruct Hr as (u & ->).
  erewrite bind_step. 2:{ unfold lift. rewrite slice_mid; [reflexivity|reflexivity|]. rewrite !len_app. cbn. lia. }
  destruct (hasPrefix (trimSpace u) "#") eqn:Hh; [|unfold ret; eauto].
  apply prefix_iff in Hh as (id & Hid). rewrite Hid.
  erewrite bind_step. 2:{ unfold lift. rewrite slice_tail; [reflexivity|reflexivity|]. rewrite len_app. cbn. reflexivity. }
  erewrite bind_step by (unfold gets; reflexivity).
  destruct (mget id (sv_grads (c_svg c))) as [p|] eqn:Hg; [|unfold ret; eauto].
  apply Hv in Hg. destruct (nth_error (c_gheap c) p) as [g|] eqn:Hn; [|apply nth_error_None in Hn; lia].
  erewrite bind_step by (unfold lift, idx; rewrite Hn; reflexivity). unfold ret. eauto.
Qed.
Theorem paint_panics (st : style) (c : cursor) k v : k = "fill"%string \/ k = "stroke"%string -> grads_valid c ->
  snd (readStyleAttr st k v c) = Panic -> panic_text v.
Proof.
  intros Hk Hv H. apply (parseSVGColor_panic E).
  assert (Hgo : forall old (set : option (pattern E) -> style -> style),
   snd ((g <- readGradURL v old ;;
   match g with
   | Some g => ret (set (Some (PGrad g)) st)
   | None => col <- lift (parseSVGColor (E := E) v) ;; ret (set (asPattern col) st)
   end) c) = Panic -> parseSVGColor (E := E) v = Panic).
  { intros old set H0. destruct (readGradURL_np v old c Hv) as (o & Ho).
    erewrite bind_step in H0 by exact Ho. destruct o; [discriminate|].
    unfold bind, lift in H0. destruct (parseSVGColor v); try discriminate. reflexivity. }
  destruct Hk as [-> | ->]; unfold readStyleAttr in H; cbn [String.eqb Ascii.eqb Bool.eqb] in H.
  - exact (Hgo _ (fun p st => s_set_filler p st) H).
  - exact (Hgo _ (fun p st => s_set_liner p st) H).
Qed.
Theorem stop_color_panics (s : gradStop E) (c : cursor) v :
  snd (stopAttr s (mkAttr "stop-color" v) c) = Panic -> panic_text v.
Proof.
  intros H. apply (parseSVGColor_panic E). unfold stopAttr, is in H. cbn [a_name a_val String.eqb Ascii.eqb Bool.eqb] in H.
  unfold bind, lift in H. destruct (parseSVGColor v); try discriminate. reflexivity.
Qed.

(** ** opacity *)
Lemma fac_app names a : forall xs b ys, factors E names a xs -> factors E names b ys -> factors E names (a ++ b) (xs ++ ys).
Proof. intros xs b ys Ha Hb. induction Ha; cbn; auto; constructor; assumption. Qed.
Lemma fac_split names a : forall b zs, factors E names (a ++ b) zs -> exists xs ys, zs = xs ++ ys /\ factors E names a xs /\ factors E names b ys.
Proof.
  induction a as [|[k v] a IH]; intros b zs H.
  - exists [], zs. split; [reflexivity|]. split; [constructor|exact H].
  - inversion H; subst.
    + destruct (IH b xs) as (x1 & y1 & -> & Hx & Hy); [assumption|]. exists (x :: x1), y1. split; [reflexivity|]. split; [constructor; assumption|assumption].
    + destruct (IH b zs) as (x1 & y1 & -> & Hx & Hy); [assumption|]. exists x1, y1. split; [reflexivity|]. split; [constructor; assumption|assumption].
Qed.
Lemma decl_fill_factor (st st' : style) k v c c' :
  readStyleAttr st k v c = (c', Ret st') -> 
  (forall x, List.In k ["opacity"; "fill-opacity"]%string -> is_number E v x -> st_fillOpacity st' = fmul E (st_fillOpacity st) x)
  /\ (~ List.In k ["opacity"; "fill-opacity"]%string -> st_fillOpacity st' = st_fillOpacity st)
  /\ (forall x, List.In k ["opacity"; "stroke-opacity"]%string -> is_number E v x -> st_lineOpacity st' = fmul E (st_lineOpacity st) x)
  /\ (~ List.In k ["opacity"; "stroke-opacity"]%string -> st_lineOpacity st' = st_lineOpacity st).
Proof.
  intros H. split; [|split; [|split]].
  - intros x Hk Hx. unfold readStyleAttr in H. cbn in Hk. destruct Hk as [<-|[<-|[]]]; cbn [String.eqb Ascii.eqb Bool.eqb orb negb] in H.
    all: apply bindC in H; destruct H as (c1 & a & H1 & H); unfold lift in H1; rewrite (number_value v x Hx) in H1; injection H1 as <- <-;
      unfold ret in H; injection H as <- <-; reflexivity.
  - intros Hk. apply (readStyleAttr_parts st st' k v c c' FillOpacity H).
    intros Hi. apply Hk. unfold parts_named in Hi. cbn [List.find fst snd] in Hi.
    repeat match type of Hi with context [String.eqb k ?n] => destruct (String.eqb_spec k n) as [->|?]; cbn [snd] in Hi end; cbn in Hi |- *; try tauto; try (destruct Hi as [Hi|Hi]; [discriminate|contradiction]).
  - intros x Hk Hx. unfold readStyleAttr in H. cbn in Hk. destruct Hk as [<-|[<-|[]]]; cbn [String.eqb Ascii.eqb Bool.eqb orb negb] in H.
    all: apply bindC in H; destruct H as (c1 & a & H1 & H); unfold lift in H1; rewrite (number_value v x Hx) in H1; injection H1 as <- <-;
      unfold ret in H; injection H as <- <-; reflexivity.
  - intros Hk. apply (readStyleAttr_parts st st' k v c c' StrokeOpacity H).
    intros Hi. apply Hk. unfold parts_named in Hi. cbn [List.find fst snd] in Hi.
    repeat match type of Hi with context [String.eqb k ?n] => destruct (String.eqb_spec k n) as [->|?]; cbn [snd] in Hi end; cbn in Hi |- *; try tauto; try (destruct Hi as [Hi|Hi]; [discriminate|contradiction]).
Qed.
Lemma fold_factors ds : forall (st st' : style) c c', foldM readDecl st ds c = (c', Ret st') ->
  (forall xs, factors E ["opacity"; "fill-opacity"]%string ds xs -> st_fillOpacity st' = fold_left (fmul E) xs (st_fillOpacity st))
  /\ (forall xs, factors E ["opacity"; "stroke-opacity"]%string ds xs -> st_lineOpacity st' = fold_left (fmul E) xs (st_lineOpacity st)).
Proof.
  induction ds as [|[k v] ds IH]; intros st st' c c' H.
  - unfold foldM, ret in H. injection H as <- <-. split; intros xs Hx; inversion Hx; reflexivity.
  - cbn [foldM] in H. apply bindC in H. destruct H as (c1 & st1 & H1 & H). unfold readDecl in H1. cbn [fst snd] in H1.
    destruct (decl_fill_factor _ _ _ _ _ _ H1) as (F1 & F2 & F3 & F4). destruct (IH _ _ _ _ H) as (I1 & I2).
    split; intros xs Hx; inversion Hx; subst; cbn [fold_left].
    + rewrite (I1 _ ltac:(eassumption)), (F1 x) by assumption. reflexivity.
    + rewrite (I1 _ ltac:(eassumption)), F2 by assumption. reflexivity.
    + rewrite (I2 _ ltac:(eassumption)), (F3 x) by assumption. reflexivity.
    + rewrite (I2 _ ltac:(eassumption)), F4 by assumption. reflexivity.
Qed.
(** a chain of start elements, outermost first *)
Lemma fold_stack ds : forall (st st' : style) (c c' : cursor), foldM readDecl st ds c = (c', Ret st') -> c_stack c' = c_stack c.
Proof.
  assert (Hk : forall st k v, keeps (fun a b : cursor => c_stack b = c_stack a) (readStyleAttr (E := E) st k v)).
  { intros st k v. 
    assert (K1 : forall v o, keeps (fun a b : cursor => c_stack b = c_stack a) (readGradURL (E := E) v o)).
    { intros v0 o c. unfold readGradURL. destruct (hasPrefix v0 "url(" && hasSuffix v0 ")"); [|reflexivity].
      unfold bind, lift. destruct (slice v0 4 (String.length v0 - 1)); try reflexivity. destruct (hasPrefix (trimSpace a) "#"); [|reflexivity].
      destruct (slice (trimSpace a) 1 (String.length (trimSpace a))); try reflexivity. cbn. destruct (mget a0 (sv_grads (c_svg c))); [|reflexivity].
      destruct (idx (c_gheap c) n); reflexivity. }
    assert (K2 : forall m, keeps (fun a b : cursor => c_stack b = c_stack a) (handleError (E := E) m)).
    { intros m c. unfold handleError, bind, gets. destruct (pc_mode (c_pc c)); reflexivity. }
    assert (K3 : forall l, keeps (fun a b : cursor => c_stack b = c_stack a) (parseDashes (E := E) l)).
    { intros l. induction l as [|x l IH]; [intros c; reflexivity|]. intros c. cbn [parseDashes]. unfold bind, cParseUnit.
      destruct (resolveUnit (sv_viewBox (c_svg c)) (trimSpace x) diagPercentage); try reflexivity.
      specialize (IH c). destruct (parseDashes l c) as [c1 [?|?| |]]; exact IH. }
    assert (K4 : forall v, keeps (fun a b : cursor => c_stack b = c_stack a) (parseTransform (E := E) v)).
    { intros v0. unfold parseTransform. apply keeps_bind; [intros; congruence| |].
      - intros c. unfold topStyle. destruct (c_stack c) eqn:Hc; cbn; rewrite Hc; reflexivity.
      - intros a. apply keeps_foldM; [reflexivity|intros; congruence|]. intros m t c. unfold transformStep. cbv zeta.
        destruct (String.length (trimSpace t) =? 0); [reflexivity|]. destruct (split1 "(" (trimSpace t)) as [|d0 [|d1 [|d2 ?]]]; try reflexivity.
        destruct (String.length d1 <? 1); [reflexivity|]. unfold bind, liftP. destruct (getPoints d1 (c_pc c)) as [p [?|?| |]]; reflexivity. }
    assert (K5 : forall s id, keeps (fun a b : cursor => c_stack b = c_stack a) (appendStr (E := E) s id)).
    { intros s id c. unfold appendStr. destruct (sl_len s <? sl_cap s); reflexivity. }
    assert (T : forall a b c : cursor, c_stack b = c_stack a -> c_stack c = c_stack b -> c_stack c = c_stack a) by (intros; congruence).
    assert (R : forall c : cursor, c_stack c = c_stack c) by reflexivity.
    unfold readStyleAttr.
    repeat (apply K1 || apply K2 || apply K3 || apply K4 || apply K5 || apply keeps_if || (apply keeps_bind; [exact T| |])
      || (apply keeps_lift; exact R) || (apply keeps_ret; exact R) 
      || match goal with |- forall _, keeps _ _ => intros ? | |- keeps _ (match ?x with _ => _ end) => destruct x end || (intros ?; reflexivity)). }
  intros st st' c c' H.
  pose proof (keeps_foldM (fun a b : cursor => c_stack b = c_stack a) (fun _ => eq_refl) (fun a b c H1 H2 => eq_trans H2 H1) readDecl ds st (fun st d => Hk st (fst d) (snd d)) c) as K.
  rewrite H in K. exact K.
Qed.
Theorem chain_opacity chain dss : Forall2 attrs_decls chain dss -> forall (c c' : cursor) st rest,
  c_stack c = st :: rest -> mapM pushStyle chain c = (c', Ret tt) ->
  exists st' rest', c_stack c' = st' :: rest'
  /\ (forall xs, factors E ["opacity"; "fill-opacity"]%string (concat dss) xs -> st_fillOpacity st' = fold_left (fmul E) xs (st_fillOpacity st))
  /\ (forall xs, factors E ["opacity"; "stroke-opacity"]%string (concat dss) xs -> st_lineOpacity st' = fold_left (fmul E) xs (st_lineOpacity st)).
Proof.
  induction 1 as [|attrs ds chain dss Ha _ IH]; intros c c' st rest Hst H.
  - unfold mapM, ret in H. injection H as <-. exists st, rest. split; [exact Hst|]. cbn [concat]. split; intros xs Hx; inversion Hx; reflexivity.
  - cbn [mapM] in H. apply bindC in H. destruct H as (c1 & [] & H1 & H). unfold pushStyle in H1.
    erewrite bind_step in H1 by (unfold topStyle; rewrite Hst; reflexivity).
    apply bindC in H1. destruct H1 as (c2 & st1 & H1 & H2). rewrite (attrs_reads _ _ Ha) in H1.
    unfold modify in H2. injection H2 as <-.
    destruct (fold_factors _ _ _ _ _ H1) as (F1 & F2).
    destruct (IH (c_set_stack (st1 :: c_stack c2) c2) _ st1 (c_stack c2) eq_refl H) as (st' & rest' & Hst' & G1 & G2).
    exists st', rest'. split; [exact Hst'|]. cbn [concat]. split; intros xs Hx; apply fac_split in Hx; destruct Hx as (ys & zs & -> & Hy & Hz);
      rewrite fold_left_app; [rewrite (G1 _ Hz), (F1 _ Hy)|rewrite (G2 _ Hz), (F2 _ Hy)]; reflexivity.
Qed.
End PS2.

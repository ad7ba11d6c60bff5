(** * PropertiesStyle: lengths, colours and style attributes (C09-C12, C15, C16, C37) *)
From Verif Require Import ProofsStyle2 ProofsF64 ExPath.
Local Open Scope go_scope.

(** the colour names of the example environment *)
Lemma names_D : name_table D.
Proof.
  intros s c H. cbn in H.
  repeat match type of H with context [String.eqb s ?n] => destruct (String.eqb_spec s n) as [->|?]; [vm_compute; repeat split; discriminate|] end.
  discriminate.
Qed.

(** C09: a number with a unit, for each of the three kinds of percentage *)
Theorem C09_lengths : forall (E : Env) (vb : bounds E) (s : string) (x : F E),
  (is_length E vb OfWidth s x -> resolveUnit vb s widthPercentage = Ret x)
  /\ (is_length E vb OfHeight s x -> resolveUnit vb s heightPercentage = Ret x)
  /\ (is_length E vb OfDiagonal s x -> resolveUnit vb s diagPercentage = Ret x).
Proof. exact (fun E vb s x => conj (resolveUnit_length vb OfWidth s x)
  (conj (resolveUnit_length vb OfHeight s x) (resolveUnit_length vb OfDiagonal s x))). Qed.
Print Assumptions C09_lengths.
Example C09_example : let vb := mkB (V 0 1) (V 0 1) (V 200 1) (V 100 1) in
  is_length D vb OfHeight " -2.5 in " (V (-240) 1) /\ is_length D vb OfWidth "50%" (V 100 1).
Proof.
  split.
  - exists " "%string, "-2.5"%string, " "%string, UIn, " "%string, (V (-5) 2). vm_compute. auto 8.
  - exists ""%string, "50"%string, ""%string, UPercent, ""%string, (V 50 1). vm_compute. auto 8.
Qed.

(** C10: six and three hexadecimal digits, on fill, stroke and stop-color *)
Theorem C10_hex : forall (E : Env), name_table E -> forall (st : style E) (c : cursor E) (s : gradStop E)
    r1 r2 g1 g2 b1 b2 vr1 vr2 vg1 vg2 vb1 vb2,
  hex_val r1 = Some vr1 -> hex_val r2 = Some vr2 -> hex_val g1 = Some vg1 -> hex_val g2 = Some vg2 ->
  hex_val b1 = Some vb1 -> hex_val b2 = Some vb2 ->
  let six := string_of_list_ascii ["#"%char; r1; r2; g1; g2; b1; b2] in
  let three := string_of_list_ascii ["#"%char; r1; g1; b1] in
  let rgb6 := (16 * vr1 + vr2, 16 * vg1 + vg2, 16 * vb1 + vb2)%Z in
  let rgb3 := (16 * vr1 + vr1, 16 * vg1 + vg1, 16 * vb1 + vb1)%Z in
  forall text rgb, (text, rgb) = (six, rgb6) \/ (text, rgb) = (three, rgb3) ->
  let '(r, g, b) := rgb in
  readStyleAttr st "fill" text c = (c, Ret (put_part FillPaint (Some (PPlain r g b 255)) st))
  /\ readStyleAttr st "stroke" text c = (c, Ret (put_part StrokePaint (Some (PPlain r g b 255)) st))
  /\ stopAttr s (mkAttr "stop-color" text) c = (c, Ret (mkStop (Some (CNRGBA r g b 255)) (stOffset s) (stOpacity s))).
Proof. exact @hex_attrs. Qed.
Print Assumptions C10_hex.
Example C10_example : hex_val "f" = Some 15%Z /\ hex_val "A" = Some 10%Z /\ hex_val "g" = None
  /\ parseSVGColor (E := D) "#fA0" = Ret (Some (255, 170, 0, 255)%Z).
Proof. vm_compute. auto. Qed.

(** C11: every text the specification calls a colour *)
Theorem C11_colours : forall (E : Env), name_table E -> forall (st : style E) (c : cursor E) (s : gradStop E) text p,
  colour E text p ->
  readStyleAttr st "fill" text c = (c, Ret (put_part FillPaint (paint E p) st))
  /\ readStyleAttr st "stroke" text c = (c, Ret (put_part StrokePaint (paint E p) st))
  /\ stopAttr s (mkAttr "stop-color" text) c
     = (c, Ret (mkStop (match p with Some (r, g, b, a) => Some (CNRGBA r g b a) | None => None end) (stOffset s) (stOpacity s))).
Proof. exact (fun E N st c s text p H => conj (fill_colour N st c text p H) (conj (stroke_colour N st c text p H) (stop_colour N s c text p H))). Qed.
Print Assumptions C11_colours.
Example C11_example : name_table D /\ colour D "rgb( 300, 50%,7 )" (Some (255, 127, 7, 255)%Z) /\ colour D "NoNe" None
  /\ colour D "Red" (Some (255, 0, 0, 255)%Z).
Proof.
  split; [exact names_D|]. split; [|split; [constructor; reflexivity|constructor; reflexivity]].
  apply (col_rgb D " 300" " 50%" "7 " 255 127 7).
  - apply (comp_int " " "300" ""); reflexivity.
  - apply (comp_perc " " "50" ""); try reflexivity. vm_compute. discriminate.
  - apply (comp_int "" "7" " "); reflexivity.
Qed.
(** ASCII texts that are neither a name nor none and do not begin like one of the other forms are errors *)
Theorem C11_other_partial : forall (E : Env), forall v, all_chars is_ascii v = true -> v <> EmptyString ->
  hasPrefix (low_case v) "url" = false -> hasPrefix v "rgb(" = false -> hasPrefix v "#" = false ->
  low_case v <> "none"%string -> colorname E (low_case v) = None ->
  parseSVGColor (E := E) v = Err ErrParamMismatch.
Proof. exact @not_a_colour. Qed.
Print Assumptions C11_other_partial.
(** but not everything else is: eight digits are read as three, out-of-range components wrap *)
Theorem C11_other_refuted :
  parseSVGColor (E := D) "#12345678" = Ret (Some (17, 34, 51, 255)%Z)
  /\ parseSVGColor (E := D) "rgb(-1,0,200%)" = Ret (Some (255, 0, 254, 255)%Z).
Proof. exact (conj eq_refl eq_refl). Qed.
Print Assumptions C11_other_refuted.

(** (computing with [presult D] in the goal would also normalise the environment) *)
Definition panics {E} (r : presult E) : bool := match r with PPanic => true | _ => false end.
Lemma panics_eq {E} (r : presult E) : panics r = true -> r = PPanic. Proof. now destruct r. Qed.
Lemma empty_fill_panics : forall mode,
  parse (E := D) 10 mode [TStart "svg" []; TStart "rect" [mkAttr "fill" ""]; TEnd "rect"; TEnd "svg"] TermEOF = PPanic.
Proof. intros m. apply panics_eq. destruct m; vm_compute; reflexivity. Qed.
(** C12 is false: a document whose only fault is an empty fill makes Parse panic *)
Theorem C12_no_panic_refuted : forall mode,
  parse (E := D) 10 mode [TStart "svg" []; TStart "rect" [mkAttr "fill" ""]; TEnd "rect"; TEnd "svg"] TermEOF = PPanic.
Proof. exact empty_fill_panics. Qed.
Print Assumptions C12_no_panic_refuted.
(** what holds: only these texts can panic (empty; # with fewer than three bytes; rgb( with an
    empty component) *)
Theorem C12_panics_partial : forall (E : Env) (st : style E) (c : cursor E) (s : gradStop E) k v,
  (k = "fill"%string \/ k = "stroke"%string) ->
  (forall id p, mget id (sv_grads (c_svg c)) = Some p -> p < List.length (c_gheap c)) ->
  snd (readStyleAttr st k v c) = Panic \/ snd (stopAttr s (mkAttr "stop-color" v) c) = Panic ->
  v = EmptyString
  \/ (exists t, v = String "#" t /\ len t < 3)
  \/ (exists a b c e, v = ("rgb(" ++ a ++ "," ++ b ++ "," ++ c ++ e)%string
       /\ (e = "" \/ e = ")")%string /\ (a = "" \/ b = "" \/ c = "")%string).
Proof. exact (fun E st c s k v Hk Hv H => match H with
  | or_introl H => paint_panics st c k v Hk Hv H | or_intror H => stop_color_panics s c v H end). Qed.
Print Assumptions C12_panics_partial.
(** and these ASCII texts do *)
Theorem C12_panics : forall (E : Env), name_table E -> forall s, all_chars is_ascii s = true ->
  s = EmptyString
  \/ (exists t, s = String "#" t /\ len t < 3)
  \/ (exists b c, s = ("rgb(," ++ b ++ "," ++ c ++ ")")%string /\ no_char "," b = true /\ no_char "," c = true)
  \/ (exists a n c, s = ("rgb(" ++ a ++ ",," ++ c ++ ")")%string /\ component a n /\ no_char "," c = true)
  \/ (exists a n b m, s = ("rgb(" ++ a ++ "," ++ b ++ ",)")%string /\ component a n /\ component b m) ->
  parseSVGColor (E := E) s = Panic.
Proof. exact parseSVGColor_panics. Qed.
Print Assumptions C12_panics.
Example C12_example : parseSVGColor (E := D) "#1" = Panic /\ parseSVGColor (E := D) "rgb(1,,2)" = Panic
  /\ parseSVGColor (E := D) "rgb(x,,2)" = Err (ErrNumber "x").
Proof. vm_compute. auto. Qed.

Lemma num_len vb e w v : number_text w = true -> parseFloat D w = Some v -> is_length D vb e w (fmul D v (V 1 1)).
Proof. intros H1 H2. exists ""%string, w, ""%string, UNone, ""%string, v. rewrite sapp_nil_r. auto 8. Qed.
Lemma num_num w v : number_text w = true -> parseFloat D w = Some v -> is_number D w (fmul D v (V 1 1)).
Proof. intros H1 H2. exists ""%string, w, ""%string, UNone, ""%string, v. rewrite sapp_nil_r. auto 8. Qed.
Lemma padded_self w : no_blank_end w = true -> all_chars is_ascii w = true -> padded w w.
Proof. intros H1 H2. exists ""%string, ""%string. rewrite sapp_nil_r. auto. Qed.
Lemma C15_ex :
  let attrs := [mkAttr "STROKE" "#00f"; mkAttr "data-x" "a:b";
                mkAttr "style" "stroke-width : 2cm ;opacity:0.5; stroke-dasharray:1, 2"; mkAttr "transform" "translate(1 2)scale(3)"] in
  let ds := [("stroke", "#00f"); ("stroke-width", "2cm"); ("opacity", "0.5"); ("stroke-dasharray", "1, 2");
             ("transform", "translate(1 2)scale(3)")]%string in
  exists st', attrs_decls attrs ds /\ decls D (mkB (V 0 1) (V 0 1) (V 9 1) (V 9 1)) (fun _ => None) defaultStyle defaultStyle ds st'
  /\ part_of FillOpacity st' = V 1 2 /\ part_of StrokePaint st' = Some (PPlain 0 0 255 255)
  /\ part_of DashArray st' = [V 1 1; V 2 1]
  /\ (let m := part_of Transform st' in [mA m; mB m; mC m; mD m; mE m; mF m]) = [V 3 1; V 0 1; V 0 1; V 3 1; V 1 1; V 2 1].
Proof.
  intros attrs ds. eexists. split; [|split].
  - apply (ads_cons _ [("stroke", "#00f")]%string).
    { apply (ad_pres "STROKE" "STROKE"); try reflexivity; try discriminate; apply padded_self; reflexivity. }
    apply (ads_cons _ []). { apply (ad_other "data-x" "data-x"); try reflexivity; try discriminate; apply padded_self; reflexivity. }
    apply (ads_cons _ [("stroke-width", "2cm"); ("opacity", "0.5"); ("stroke-dasharray", "1, 2")]%string).
    { apply ad_style; [reflexivity|].
      apply (stt_cons "stroke-width : 2cm " [("stroke-width", "2cm")]%string "opacity:0.5; stroke-dasharray:1, 2"); [reflexivity| |].
      { apply (dt_decl "stroke-width " " 2cm " "stroke-width" "2cm"); try reflexivity.
        - exists ""%string, " "%string. auto 6. - exists " "%string, " "%string. auto 6. }
      apply (stt_cons "opacity:0.5" [("opacity", "0.5")]%string " stroke-dasharray:1, 2"); [reflexivity| |].
      { apply (dt_decl "opacity" "0.5" "opacity" "0.5"); try reflexivity; apply padded_self; reflexivity. }
      apply stt_last; [reflexivity|].
      apply (dt_decl " stroke-dasharray" "1, 2" "stroke-dasharray" "1, 2"); try reflexivity; [|apply padded_self; reflexivity].
      exists " "%string, ""%string. auto 6. }
    apply (ads_cons _ [("transform", "translate(1 2)scale(3)")]%string); [|constructor].
    apply (ad_pres "transform" "transform"); try reflexivity; try discriminate; apply padded_self; reflexivity.
  - eapply decls_cons.
    { apply decl_stroke. apply paint_colour. apply (col_hex3 D "0" "0" "f" 0 0 15); reflexivity. }
    eapply decls_cons.
    { apply decl_width. exists ""%string, "2"%string, ""%string, UCm, ""%string, (V 2 1). vm_compute. auto 8. }
    eapply decls_cons. { apply decl_opacity. apply (num_num "0.5" (V 1 2)); vm_compute; reflexivity. }
    eapply decls_cons.
    { apply decl_dasharray; [discriminate|]. eapply (dash_cons D _ "" "1" ", 2"); try reflexivity.
      { apply (num_len _ _ "1" (V 1 1)); vm_compute; reflexivity. }
      eapply (dash_cons D _ ", " "2" ""); try reflexivity.
      { apply (num_len _ _ "2" (V 2 1)); vm_compute; reflexivity. }
      apply dash_nil. reflexivity. }
    eapply decls_cons; [|apply decls_nil].
    apply (decl_transform _ _ _ _ _ _ [Translate D (V 1 1) (V 2 1); Scale D (V 3 1) (V 3 1)]).
    apply (tt_cons D "" "translate" "" "1 2" [V 1 1; V 2 1] _ "scale(3)"); try reflexivity; try discriminate.
    { split; reflexivity. }
    { exists [(""%string, num NoSign "1" None); (" "%string, num NoSign "2" None)], ""%string. vm_compute. auto. }
    apply (tt_cons D "" "scale" "" "3" [V 3 1] _ ""); try reflexivity; try discriminate.
    { split; [reflexivity|]. right. auto. }
    { exists [(""%string, num NoSign "3" None)], ""%string. vm_compute. auto. }
    apply tt_nil. reflexivity.
  - split; [vm_compute; reflexivity|]. split; [reflexivity|]. split; vm_compute; reflexivity.
Qed.
(** C15: whatever the value, the parts a property name is not about keep their value *)
Theorem C15_other_parts : forall (E : Env) (st st' : style E) k v (c c' : cursor E) p,
  readStyleAttr st k v c = (c', Ret st') -> ~ List.In p (parts_named k) -> part_of p st' = part_of p st.
Proof. exact @readStyleAttr_parts. Qed.
Print Assumptions C15_other_parts.
(** C15, C37: the documented values *)
Theorem C15_values : forall (E : Env), name_table E -> forall vb grads par st k v us (c : cursor E) rest,
  decl E vb grads par st k v us -> sv_viewBox (c_svg c) = vb -> sees c grads -> c_stack c = par :: rest ->
  exists c', readStyleAttr st k v c = (c', Ret (put_parts us st))
    /\ exists ps, c' = c_set_pc (set_points ps (c_pc c)) c.
Proof. exact @decl_ok. Qed.
Print Assumptions C15_values.
(** C15: the attributes of an element, however they are written (presentation attributes, style
    attribute, white space, case of names) *)
Theorem C15_attributes : forall (E : Env), name_table E -> forall vb grads par attrs ds st' (c : cursor E) rest,
  attrs_decls attrs ds -> decls E vb grads par par ds st' ->
  sv_viewBox (c_svg c) = vb -> sees c grads -> c_stack c = par :: rest ->
  exists ps, pushStyle attrs c = (c_set_stack (st' :: par :: rest) (c_set_pc (set_points ps (c_pc c)) c), Ret tt).
Proof. exact @pushStyle_decls. Qed.
Print Assumptions C15_attributes.
Example C15_example :
  let attrs := [mkAttr "STROKE" "#00f"; mkAttr "data-x" "a:b";
                mkAttr "style" "stroke-width : 2cm ;opacity:0.5; stroke-dasharray:1, 2"; mkAttr "transform" "translate(1 2)scale(3)"] in
  let ds := [("stroke", "#00f"); ("stroke-width", "2cm"); ("opacity", "0.5"); ("stroke-dasharray", "1, 2");
             ("transform", "translate(1 2)scale(3)")]%string in
  exists st', attrs_decls attrs ds /\ decls D (mkB (V 0 1) (V 0 1) (V 9 1) (V 9 1)) (fun _ => None) defaultStyle defaultStyle ds st'
  /\ part_of FillOpacity st' = V 1 2 /\ part_of StrokePaint st' = Some (PPlain 0 0 255 255)
  /\ part_of DashArray st' = [V 1 1; V 2 1]
  /\ (let m := part_of Transform st' in [mA m; mB m; mC m; mD m; mE m; mF m]) = [V 3 1; V 0 1; V 0 1; V 3 1; V 1 1; V 2 1].
Proof. exact C15_ex. Qed.

(** C16: down a chain of nested elements the opacities multiply, outermost first.  The default
    style starts from 1. *)
Theorem C16_opacity : forall (E : Env) chain dss, Forall2 attrs_decls chain dss ->
  forall (c c' : cursor E) st rest, c_stack c = st :: rest -> mapM pushStyle chain c = (c', Ret tt) ->
  exists st' rest', c_stack c' = st' :: rest'
  /\ (forall xs, factors E ["opacity"; "fill-opacity"]%string (concat dss) xs ->
        st_fillOpacity st' = fold_left (fmul E) xs (st_fillOpacity st))
  /\ (forall xs, factors E ["opacity"; "stroke-opacity"]%string (concat dss) xs ->
        st_lineOpacity st' = fold_left (fmul E) xs (st_lineOpacity st)).
Proof. exact @chain_opacity. Qed.
Print Assumptions C16_opacity.
Example C16_example :
  let chain := [[mkAttr "opacity" "0.5"]; []; [mkAttr "fill" "red"; mkAttr "style" "fill-opacity:0.5;opacity:0.25"]] in
  exists dss, Forall2 attrs_decls chain dss
    /\ factors D ["opacity"; "fill-opacity"]%string (concat dss) [V 1 2; V 1 2; V 1 4]
    /\ factors D ["opacity"; "stroke-opacity"]%string (concat dss) [V 1 2; V 1 4].
Proof.
  exists [[("opacity", "0.5")]; []; [("fill", "red"); ("fill-opacity", "0.5"); ("opacity", "0.25")]]%string.
  assert (H1 : is_number D "0.5" (V 1 2)) by (exists ""%string, "0.5"%string, ""%string, UNone, ""%string, (V 1 2); vm_compute; auto 8).
  assert (H2 : is_number D "0.25" (V 1 4)) by (exists ""%string, "0.25"%string, ""%string, UNone, ""%string, (V 1 4); vm_compute; auto 8).
  split; [|split].
  - constructor; [|constructor; [constructor|constructor; [|constructor]]].
    + apply (ads_cons _ [("opacity", "0.5")]%string); [|constructor].
      apply (ad_pres "opacity" "opacity"); try reflexivity; try discriminate; apply padded_self; reflexivity.
    + apply (ads_cons _ [("fill", "red")]%string).
      { apply (ad_pres "fill" "fill"); try reflexivity; try discriminate; apply padded_self; reflexivity. }
      apply (ads_cons _ [("fill-opacity", "0.5"); ("opacity", "0.25")]%string); [|constructor].
      apply ad_style; [reflexivity|].
      apply (stt_cons "fill-opacity:0.5" [("fill-opacity", "0.5")]%string "opacity:0.25"); [reflexivity| |].
      { apply (dt_decl "fill-opacity" "0.5" "fill-opacity" "0.5"); try reflexivity; apply padded_self; reflexivity. }
      apply stt_last; [reflexivity|].
      apply (dt_decl "opacity" "0.25" "opacity" "0.25"); try reflexivity; apply padded_self; reflexivity.
  - cbn [concat app]. apply fac_take; [cbn; auto|exact H1|]. apply fac_skip; [cbn; intuition discriminate|].
    apply fac_take; [cbn; auto|exact H1|]. apply fac_take; [cbn; auto|exact H2|]. constructor.
  - cbn [concat app]. apply fac_take; [cbn; auto|exact H1|]. apply fac_skip; [cbn; intuition discriminate|].
    apply fac_skip; [cbn; intuition discriminate|]. apply fac_take; [cbn; auto|exact H2|]. constructor.
Qed.

(** C37: lengths, lists, keywords; [dash_list], [cap_words] and the like are in SpecStyle.  The
    value none is missing: see below. *)
Theorem C37_strokes_partial : forall (E : Env) vb (st : style E) (c : cursor E), sv_viewBox (c_svg c) = vb ->
  (forall v x, is_length E vb OfWidth v x -> readStyleAttr st "stroke-width" v c = (c, Ret (put_part StrokeWidth x st)))
  /\ (forall v x, is_length E vb OfDiagonal v x -> readStyleAttr st "stroke-dashoffset" v c = (c, Ret (put_part DashOffset x st)))
  /\ (forall v xs, v <> "none"%string -> dash_list E vb v xs -> readStyleAttr st "stroke-dasharray" v c = (c, Ret (put_part DashArray xs st)))
  /\ (forall v x, is_number E v x ->
       readStyleAttr st "stroke-miterlimit" v c = (c, Ret (put_part MiterLimit (f_to_i32 E (fmul E x (fnum E 64))) st)))
  /\ (forall v m, List.In (v, m) cap_words -> readStyleAttr st "stroke-linecap" v c = (c, Ret (put_part LineCap m st)))
  /\ (forall v m, List.In (v, m) cap_words -> readStyleAttr st "stroke-leadlinecap" v c = (c, Ret (put_part LeadLineCap m st)))
  /\ (forall v m, List.In (v, m) gap_words -> readStyleAttr st "stroke-linegap" v c = (c, Ret (put_part LineGap m st)))
  /\ (forall v m, List.In (v, m) join_words -> readStyleAttr st "stroke-linejoin" v c = (c, Ret (put_part LineJoin m st))).
Proof. exact @stroke_settings. Qed.
Print Assumptions C37_strokes_partial.
(** C37: none does not clear an inherited dash list *)
Theorem C37_none_refuted : forall (E : Env) (st : style E) (c : cursor E),
  readStyleAttr st "stroke-dasharray" "none" c = (c, Ret st).
Proof. exact (fun E st c => eq_refl). Qed.
Print Assumptions C37_none_refuted.
Example C37_example :
  dash_list D (mkB (V 0 1) (V 0 1) (V 9 1) (V 9 1)) "5, 1.5 ,,2px" [V 5 1; V 3 2; V 2 1]
  /\ is_number D "4" (V 4 1) /\ List.In ("round"%string, RoundCap) cap_words.
Proof.
  split; [|split; [exists ""%string, "4"%string, ""%string, UNone, ""%string, (V 4 1); vm_compute; auto 8|cbn; auto]].
  eapply (dash_cons D _ "" "5" ", 1.5 ,,2px"); try reflexivity.
  { exists ""%string, "5"%string, ""%string, UNone, ""%string, (V 5 1). vm_compute. auto 8. }
  eapply (dash_cons D _ ", " "1.5" " ,,2px"); try reflexivity.
  { exists ""%string, "1.5"%string, ""%string, UNone, ""%string, (V 3 2). vm_compute. auto 8. }
  eapply (dash_cons D _ " ,," "2px" ""); try reflexivity.
  { exists ""%string, "2"%string, ""%string, UPx, ""%string, (V 2 1). vm_compute. auto 8. }
  apply dash_nil. reflexivity.
Qed.

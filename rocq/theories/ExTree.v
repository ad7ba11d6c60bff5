(** * ExTree: a document for the examples *)
From Verif Require Export SpecTree ExPath ExShape ProofsF64.

Lemma sapp_nil_end (s : string) : (s ++ "")%string = s.
Proof. induction s as [|c s IH]; [reflexivity|]. cbn. rewrite IH. reflexivity. Qed.
Lemma len_plain vb e w v : number_text w = true -> parseFloat D w = Some v -> is_length D vb e w (length_value D vb e UNone v).
Proof. intros H1 H2. exists ""%string, w, ""%string, UNone, ""%string, v. cbn [unit_text String.append]. rewrite sapp_nil_end. auto 8. Qed.
Lemma len_perc vb e w v : number_text w = true -> parseFloat D w = Some v -> is_length D vb e (w ++ "%") (length_value D vb e UPercent v).
Proof. intros H1 H2. exists ""%string, w, ""%string, UPercent, ""%string, v. cbn [unit_text String.append]. auto 8. Qed.
Lemma number_plain_text w v : number_text w = true -> parseFloat D w = Some v -> is_number D w (fmul D v (flit D 1 1)).
Proof. intros H1 H2. exists ""%string, w, ""%string, UNone, ""%string, v. cbn [unit_text String.append]. rewrite sapp_nil_end. auto 8. Qed.
Definition tidy (w : string) : bool := no_blank_end w && all_chars is_ascii w.
Lemma tidy_padded w : tidy w = true -> padded w w.
Proof. intros H. apply andb_prop in H as [H1 H2]. exists ""%string, ""%string. cbn. rewrite sapp_nil_end. auto. Qed.
Lemma ad_skip n v : tidy n && lacks ":" n && negb (String.eqb (low_case n) "style") = true -> parts_named (low_case n) = [] -> attr_decls (mkAttr n v) [].
Proof.
  intros H Hp. apply andb_prop in H as [H H3]. apply andb_prop in H as [H1 H2]. apply negb_true_iff, String.eqb_neq in H3.
  eapply ad_other; eauto using tidy_padded.
Qed.
Lemma ad_keep n v : tidy n && tidy v && lacks ":" n && lacks ":" v && negb (String.eqb (low_case n) "style") = true -> attr_decls (mkAttr n v) [(low_case n, v)].
Proof.
  intros H. apply andb_prop in H as [H H5]. apply andb_prop in H as [H H4]. apply andb_prop in H as [H H3]. apply andb_prop in H as [H1 H2].
  apply negb_true_iff, String.eqb_neq in H5. apply ad_pres; auto using tidy_padded.
Qed.
Lemma styled_plain vb grads par : styled D vb grads par [] par.
Proof. exists []. split; constructor. Qed.
Lemma styled_skip vb grads par a attrs st : styled D vb grads par attrs st -> attr_decls a [] -> styled D vb grads par (a :: attrs) st.
Proof. intros (ds & H1 & H2) Ha. exists ds. split; [|exact H2]. change ds with ([] ++ ds). constructor; assumption. Qed.
(** one presentation attribute, the others are about geometry *)
Lemma styled_one vb grads par n v us attrs : attr_decls (mkAttr n v) [(low_case n, v)] -> attrs_decls attrs [] -> decl D vb grads par par (low_case n) v us ->
  styled D vb grads par (mkAttr n v :: attrs) (put_parts us par).
Proof.
  intros H1 H2 H3. exists ([(low_case n, v)] ++ []). split; [constructor; assumption|]. cbn. econstructor; [exact H3|constructor].
Qed.
Lemma skips_nil : attrs_decls [] []. Proof. constructor. Qed.
Lemma skips_cons a l : attr_decls a [] -> attrs_decls l [] -> attrs_decls (a :: l) [].
Proof. intros H1 H2. change (@nil (string * string)) with (@nil (string * string) ++ []) at 1. constructor; assumption. Qed.

Definition ex_doc : list node :=
  [Misc;
   Elem "svg" [mkAttr "viewBox" "0 0 200 100"; mkAttr "width" "7"]
    [Elem "title" [] [Chars "a "; Misc; Chars "b"];
     Elem "defs" []
       [Elem "linearGradient" [mkAttr "id" "a"; mkAttr "y2" "50%"] [Elem "stop" [mkAttr "stop-color" "blue"; mkAttr "offset" "50%"] []];
        Elem "line" [mkAttr "id" "l"; mkAttr "x2" "5"] [];
        Elem "g" [mkAttr "id" "k"] [Elem "line" [mkAttr "x1" "1"] []; Misc; Elem "use" [mkAttr "href" "#l"; mkAttr "x" "3"] []];
        Elem "line" [mkAttr "y2" "4"] []];
     Chars " ";
     Elem "g" [mkAttr "opacity" "0.5"]
       [Elem "line" [mkAttr "fill" "url(#a)"; mkAttr "x1" "5"] [];
        Elem "circle" [] [];
        Elem "use" [mkAttr "href" "#l"; mkAttr "x" "50%"] [];
        Elem "use" [mkAttr "href" "#k"; mkAttr "y" "50%"] []];
     Elem "mask" [mkAttr "id" "m"] [Elem "path" [mkAttr "d" " M10,20L-3.5.5 h2e-1z m+1 1 3,4"] []];
     Elem "line" [mkAttr "y1" "2"] []]]%string.

Ltac skips := repeat (apply skips_cons; [apply ad_skip; reflexivity|]); apply skips_nil.
Ltac plain_style := exists []; split; [skips|constructor].
Ltac num := vm_compute; reflexivity.
Ltac lens :=
  unfold length_attr; cbn [value_attr String.eqb Ascii.eqb Bool.eqb a_name a_val];
  repeat match goal with
  | |- exists _, _ /\ _ => eexists; split; [first [apply len_plain; num | apply (len_perc _ _ "50"); num]|]
  | |- _ = _ => reflexivity
  end.
Ltac a_line := eapply sh_line; lens.
(** outlines whose elements are solved by [t] *)
Ltac one t := repeat (eapply ol_cons; [t|]); apply ol_nil.

Lemma ex_root : styled D (no_box D) (fun _ => None) defaultStyle [mkAttr "viewBox" "0 0 200 100"; mkAttr "width" "7"] defaultStyle.
Proof. plain_style. Qed.
Lemma ex_view : view_box (E := D) [mkAttr "viewBox" "0 0 200 100"; mkAttr "width" "7"] ex_box.
Proof.
  exists (V 0 1), (V 0 1), (V 200 1), (V 100 1), (fmul D (V 7 1) (flit D 1 1)), (V 0 1).
  split; [|split; [|split]].
  - cbn [value_attr a_name a_val String.eqb Ascii.eqb Bool.eqb]. exists (V 0 1, V 0 1, V 200 1, V 100 1). split; [|reflexivity].
    exists [(""%string, num NoSign "0" None); (" "%string, num NoSign "0" None); (" "%string, num NoSign "200" None); (" "%string, num NoSign "100" None)], ""%string.
    vm_compute. auto.
  - cbn [value_attr a_name a_val String.eqb Ascii.eqb Bool.eqb]. eexists. split; [apply number_plain_text; num|reflexivity].
  - reflexivity.
  - unfold ex_box. f_equal.
Qed.

Lemma ex_stop : is_stop D [mkAttr "stop-color" "blue"; mkAttr "offset" "50%"]
  (mkStop (Some (CNRGBA 0 0 255 255)) (fdiv D (fmul D (V 50 1) (fnum D 1)) (fnum D 100)) (fnum D 1)).
Proof.
  exists [("stop-color", "blue"); ("offset", "50%")]%string. eexists _, _, _. split; [|split; [|split; [|split; [|reflexivity]]]].
  - exists []. split; [reflexivity|]. left. split; reflexivity.
  - cbn [last_value String.eqb Ascii.eqb Bool.eqb]. eexists. split; [|reflexivity]. exists (Some (0, 0, 255, 255)%Z). split; [constructor; reflexivity|reflexivity].
  - cbn [last_value String.eqb Ascii.eqb Bool.eqb]. eexists. split; [|reflexivity].
    exists ""%string, "50"%string, ""%string, (V 50 1). repeat split. right. split; reflexivity.
  - reflexivity.
Qed.
Definition lv (e : extent) (z : Z) : F D := length_value D (grad_box D ex_box ObjectBoundingBox) e UPercent (V z 1).
Lemma ex_grad_of base : gradient_of D ex_box "linearGradient" base [mkAttr "id" "a"; mkAttr "y2" "50%"] []
  (mkGrad (Some (Linear (lv OfWidth 0%Z) (lv OfHeight 0%Z) (lv OfWidth 100%Z) (lv OfHeight 50%Z))) [] ex_box identity PadSpread ObjectBoundingBox).
Proof.
  exists ObjectBoundingBox, PadSpread, identity. eexists. split; [reflexivity|]. split; [reflexivity|]. split; [reflexivity|]. split; [|reflexivity]. left. split; [reflexivity|].
  exists (lv OfWidth 0%Z), (lv OfHeight 0%Z), (lv OfWidth 100%Z), (lv OfHeight 50%Z). unfold lv.
  split; [apply (len_perc _ _ "0"); num|]. split; [apply (len_perc _ _ "0"); num|]. split; [apply (len_perc _ _ "100"); num|]. split; [apply (len_perc _ _ "50"); num|]. reflexivity.
Qed.
Lemma ex_grad base : exists g, gradient_of D ex_box "linearGradient" base [mkAttr "id" "a"; mkAttr "y2" "50%"] [] g.
Proof. eexists. apply ex_grad_of. Qed.
Lemma ex_opacity : exists st, (forall grads, styled D ex_box grads defaultStyle [mkAttr "opacity" "0.5"] st) /\ st_fillOpacity st = V 1 2.
Proof.
  eexists. split; [intros grads; apply styled_one; [apply (ad_keep "opacity"); reflexivity|skips|]; apply decl_opacity; apply number_plain_text; num|].
  vm_compute. reflexivity.
Qed.
Lemma ex_fill grads par g : grads "a"%string = Some g ->
  styled D ex_box grads par [mkAttr "fill" "url(#a)"; mkAttr "x1" "5"] (put_parts [assign FillPaint (Some (PGrad (with_stops D g (part_of FillPaint par))))] par).
Proof.
  intros H. apply styled_one; [apply (ad_keep "fill"); reflexivity|skips|]. apply (decl_fill D). eapply paint_url; [|exact H].
  exists ""%string, ""%string. repeat split.
Qed.

Lemma fig_drawn SH vb f w p o : outlines D SH vb [] (fg_shapes D f) p -> p = o :: tl p -> draws_figure D SH vb f w (with_figs D (w_figs D w ++ [f]) w).
Proof. intros H Hp. exists p. split; [exact H|]. rewrite Hp. reflexivity. Qed.
Lemma fig_empty SH vb f w : outlines D SH vb [] (fg_shapes D f) [] -> draws_figure D SH vb f w w.
Proof. intros H. exists []. split; [exact H|reflexivity]. Qed.
Lemma one_line attrs r p q p' off : shape D ex_box off "line" attrs q -> outlines D (shape D) ex_box (p ++ q) r p' -> outlines D (shape D) ex_box p ((off, "line"%string, attrs) :: r) p'.
Proof. intros H K. econstructor; [exact H|exact K]. Qed.
(** the elements a figure is made of *)
Definition parts_of (f : figure D) : list (string * list attr) := map (fun q => (snd (fst q), snd q)) (fg_shapes D f).
Ltac a_trace := eapply tr_shape; [plain_style|cbn; auto|apply tr_nil].
Ltac lines := eapply fig_drawn; [repeat (eapply one_line; [a_line|]); apply ol_nil|reflexivity].
Theorem ex_document : exists w, document D (shape D) false 1 ex_doc ex_box w /\ w_titles D w = ["a b"%string]
  /\ map parts_of (w_figs D w)
     = [[("line", [mkAttr "fill" "url(#a)"; mkAttr "x1" "5"])]; [("line", [mkAttr "id" "l"; mkAttr "x2" "5"])];
        [("line", [mkAttr "x1" "1"]); ("line", [mkAttr "id" "l"; mkAttr "x2" "5"]); ("line", [mkAttr "y2" "4"])];
        [("line", [mkAttr "y1" "2"])]]%string
  /\ option_map (fun m => length (snd m)) (w_masks D w "m") = Some 1
  /\ (exists g, w_grads D w "a" = Some g /\ length (gStops g) = 1)
  /\ w_masks D w "x" = None.
Proof.
  destruct (ex_grad (part_of Transform (defaultStyle (E := D)))) as (g & Hg).
  destruct ex_opacity as (sto & Hop & _).
  eexists. split.
  { exists [Misc], [mkAttr "viewBox" "0 0 200 100"; mkAttr "width" "7"].
    eexists _, [], defaultStyle, _, _.
    split; [reflexivity|]. split; [reflexivity|]. split; [reflexivity|]. split; [apply ex_root|]. split; [apply ex_view|].
    eapply sems_cons; [eapply sem_title; [plain_style|reflexivity]|].
    eapply sems_cons.
    { eapply sem_defs; [plain_style|]. eapply dk_grad.
      { eapply ge with (id := Some "a"%string); [plain_style|exact Hg|exists [], [mkAttr "y2" "50%"]; repeat split|].
        eapply gk_stop; [plain_style|reflexivity|apply ex_stop|apply gk_nil]. }
      eapply dk_new; [eapply dn_elem; [plain_style|cbn; auto|reflexivity]|left; discriminate|].
      eapply dk_new; [eapply dn_group; [plain_style|]|left; discriminate|].
      { eapply di_cons; [reflexivity|eapply dn_elem; [plain_style|cbn; auto|reflexivity]|].
        eapply di_misc. eapply di_cons; [reflexivity|eapply dn_elem; [plain_style|cbn; auto|reflexivity]|]. apply di_nil. }
      eapply dk_more; [eapply dn_elem; [plain_style|cbn; auto|reflexivity]|reflexivity|reflexivity|]. apply dk_nil. }
    eapply sems_cons; [apply sem_chars|].
    eapply sems_cons.
    { eapply sem_group; [left; reflexivity|apply Hop|].
      eapply sems_cons. { eapply sem_shape; [apply ex_fill; reflexivity|lines|apply sems_nil]. }
      eapply sems_cons. { eapply sem_shape; [plain_style|apply fig_empty; one ltac:(eapply sh_circle_flat; lens; reflexivity)|apply sems_nil]. }
      eapply sems_cons.
      { eapply sem_use; [plain_style|reflexivity|lens|lens|reflexivity|a_trace|lines|apply sems_nil]. }
      eapply sems_cons; [|apply sems_nil].
      eapply sem_use; [plain_style|reflexivity|lens|lens|reflexivity|eapply tr_group; [plain_style|eapply tr_shape; [plain_style|cbn; auto|eapply tr_use; [plain_style|reflexivity|lens|lens|reflexivity|a_trace|apply tr_nil]]|a_trace]|lines|apply sems_nil]. }
    eapply sems_cons.
    { eapply sem_mask with (id := "m"%string) (b := (V 0 1, V 0 1, V 0 1, V 0 1));
        [plain_style|repeat split; cbn; eexists; split; [split; [discriminate|reflexivity]|reflexivity]|reflexivity|].
      eapply sems_cons; [|apply sems_nil]. eapply sem_shape; [plain_style|eapply fig_drawn; [one ltac:(eapply sh_path; [exists [], []; repeat split|exact ex_spells|reflexivity])|reflexivity]|apply sems_nil]. }
    eapply sems_cons; [|apply sems_nil]. eapply sem_shape; [plain_style|lines|apply sems_nil]. }
  split; [reflexivity|]. split; [reflexivity|]. split; [reflexivity|]. split; [|reflexivity].
  eexists. split; [reflexivity|]. destruct Hg as (? & ? & ? & ? & _ & _ & _ & _ & ->). reflexivity.
Qed.

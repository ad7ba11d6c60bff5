(** * PropertiesMistake: mistakes in a document are reported (C61) *)
From Coq Require Import ZArith Lia.
From Verif Require Import F64 SpecMistake ProofsMistake3 ProofsF64 ExTree.
Local Open Scope string_scope.

(** ** C61: a document with a mistake is not accepted *)
(** An element that is drawn (that is not kept as a definition) and has a length that is no number with an optional unit,
    a viewBox without four numbers, an odd number of points, a wrong gradientTransform, a mask without a name or a use
    without a reference to an id: Parse does not return a document without an error, in any mode. *)
Theorem C61_element : forall (E : Env) (fuel : nat) (mode : errorMode) pre name attrs post (tm : term),
  flat_defs pre -> is_definition pre name = false -> bad_element E name attrs ->
  forall s log, parse (E := E) fuel mode (pre ++ TStart name attrs :: post) tm <> PSvg s None log.
Proof. exact (@bad_element_fails). Qed.
Print Assumptions C61_element.
(** Any element, a definition included, with a style declaration whose value is no number, colour, transform list or mask
    reference, wherever it is declared: in an attribute of its own or in a style attribute, after and before anything. *)
Theorem C61_style : forall (E : Env) (fuel : nat) (mode : errorMode) pre name attrs post (tm : term) a ds k v,
  List.In a attrs -> attr_decls a ds -> List.In (k, v) ds -> bad_decl E k v ->
  forall s log, parse (E := E) fuel mode (pre ++ TStart name attrs :: post) tm <> PSvg s None log.
Proof. exact (@bad_style_fails). Qed.
Print Assumptions C61_style.
(** A use of an id that no definition before it has. *)
Theorem C61_use : forall (E : Env) (fuel : nat) (mode : errorMode) pre attrs id post (tm : term),
  flat_defs pre -> is_definition pre "use" = false -> last_attr "href" attrs = Some (String "#" id) -> id <> "" -> ~ defines pre id ->
  forall s log, parse (E := E) fuel mode (pre ++ TStart "use" attrs :: post) tm <> PSvg s None log.
Proof. exact (@unknown_use_fails). Qed.
Print Assumptions C61_use.
(** A path with a wrong number of coordinates (addition commutes in float64 and in the reals). *)
Theorem C61_path : forall (E : Env) (add_comm : forall a b, fadd E a b = fadd E b a) (fuel : nat) (mode : errorMode) pre attrs d post (tm : term),
  flat_defs pre -> is_definition pre "path" = false -> List.In (mkAttr "d" d) attrs -> bad_path E d ->
  forall s log, parse (E := E) fuel mode (pre ++ TStart "path" attrs :: post) tm <> PSvg s None log.
Proof. exact (@bad_path_fails). Qed.
Print Assumptions C61_path.
(** A stop of a gradient with a wrong colour, opacity or offset. *)
Theorem C61_stop : forall (E : Env) (fuel : nat) (mode : errorMode) pre attrs post (tm : term),
  flat_defs pre -> open_gradient pre = true -> bad_stop E attrs ->
  forall s log, parse (E := E) fuel mode (pre ++ TStart "stop" attrs :: post) tm <> PSvg s None log.
Proof. exact (@bad_stop_fails). Qed.
Print Assumptions C61_stop.
(** In strict mode also: an element that is not supported, and a keyword that is not supported. *)
Theorem C61_strict_element : forall (E : Env) (fuel : nat) pre name attrs post (tm : term),
  flat_defs pre -> is_definition pre name = false -> ~ List.In name svg_names ->
  forall s log, parse (E := E) fuel StrictErrorMode (pre ++ TStart name attrs :: post) tm <> PSvg s None log.
Proof. exact (@unknown_element_fails). Qed.
Print Assumptions C61_strict_element.
Theorem C61_strict_style : forall (E : Env) (fuel : nat) pre name attrs post (tm : term) a ds k v,
  List.In a attrs -> attr_decls a ds -> List.In (k, v) ds -> bad_keyword k v ->
  forall s log, parse (E := E) fuel StrictErrorMode (pre ++ TStart name attrs :: post) tm <> PSvg s None log.
Proof. exact (@bad_keyword_fails). Qed.
Print Assumptions C61_strict_style.

(** ** Concrete cases *)
Definition accepts (r : presult D) : bool := match r with PSvg _ None _ => true | _ => false end.
Definition no_number (w : string) : bool := match parseFloat D w with None => true | Some _ => false end.
Lemma no_number_none w : no_number w = true -> parseFloat D w = None.
Proof. unfold no_number. destruct (parseFloat D w); [discriminate|reflexivity]. Qed.
(** "x" is no length *)
Lemma x_bad : bad_length D "x".
Proof.
  split; [reflexivity|]. intros l w m u r H Bl _ _. apply no_number_none.
  destruct l as [|c l]; cbn [append] in H; [|injection H as <- _; discriminate Bl].
  destruct w as [|c w]; [vm_compute; reflexivity|]. cbn [append] in H. injection H as <- H. destruct w; [vm_compute; reflexivity|discriminate H].
Qed.
(** a document before, and the definition of an id *)
Definition before : list token :=
  [TStart "svg" [mkAttr "viewBox" "0 0 9 9"]; TStart "defs" []; TStart "g" [mkAttr "id" "a"]; TStart "rect" [mkAttr "width" "1"; mkAttr "height" "1"];
   TEnd "rect"; TEnd "g"; TEnd "defs"].
Lemma before_flat : flat_defs before.
Proof.
  intros pre attrs post H. unfold before in H.
  repeat (destruct pre as [|? pre]; [try discriminate H; reflexivity|injection H as <- H]); destruct pre; discriminate H.
Qed.
Lemma before_defines id : defines before id -> id = "a".
Proof.
  intros (p & name & attrs & q & H & Hd & Hi). unfold before in H.
  repeat (destruct p as [|? p]; [try discriminate H; injection H as <- <- <-; vm_compute in Hd; try discriminate Hd; vm_compute in Hi; congruence|injection H as <- H]); destruct p; discriminate H.
Qed.
Definition with_el (name : string) (attrs : list attr) : presult D :=
  parse 3 IgnoreErrorMode (before ++ TStart name attrs :: [TEnd name; TEnd "svg"]) TermEOF.
Example C61_element_example :
  flat_defs before /\ is_definition before "rect" = false
  /\ bad_element D "rect" [mkAttr "width" "1"; mkAttr "height" "x"]
  /\ bad_element D "mask" [mkAttr "id" ""] /\ bad_element D "use" [mkAttr "href" "a"] /\ bad_element D "use" []
  /\ bad_element D "radialGradient" [mkAttr "cx" "1"; mkAttr "cx" "x"]
  /\ accepts (with_el "rect" [mkAttr "width" "1"; mkAttr "height" "2"]) = true /\ accepts (with_el "mask" [mkAttr "id" "m"]) = true
  /\ accepts (with_el "use" [mkAttr "href" "#a"]) = true
  /\ accepts (with_el "radialGradient" [mkAttr "cx" "x"; mkAttr "cx" "1"]) = true.
Proof.
  split; [exact before_flat|]. split; [reflexivity|].
  split; [apply (be_length D "rect" _ "height" "x"); [cbn; tauto|cbn; tauto|exact x_bad]|].
  split; [apply be_mask_id; left; reflexivity|]. split; [apply (be_href D _ "a"); reflexivity|]. split; [apply be_no_href; reflexivity|].
  split; [apply (be_coordinate D "radialGradient" _ "cx" "x"); [cbn; tauto|reflexivity|exact x_bad]|].
  vm_compute. auto.
Qed.
Lemma tidy_decl n v : String.eqb (low_case n) "style" = false -> padded n n -> padded v v -> lacks ":" n = true -> lacks ":" v = true ->
  attr_decls (mkAttr n v) [(low_case n, v)].
Proof. intros H1 H2 H3 H4 H5. apply (ad_pres n n v v); auto. apply String.eqb_neq, H1. Qed.
Example C61_style_example :
  attr_decls (mkAttr "stroke-width" "x") [("stroke-width", "x")] /\ bad_decl D "stroke-width" "x"
  /\ bad_decl D "fill" "rgb(1,2)" /\ bad_decl D "fill" "#12x" /\ bad_decl D "fill" "rgb(1,,3)" /\ bad_decl D "fill" "rgb(1,2,x)" /\ bad_decl D "stroke" "nocolour"
  /\ bad_decl D "transform" "rotate(1) translate" /\ bad_decl D "transform" "scale()" /\ bad_decl D "mask" "#m" /\ bad_decl D "stroke-dasharray" "1 x"
  /\ accepts (with_el "g" [mkAttr "stroke-width" "1"; mkAttr "fill" "#123"; mkAttr "transform" "rotate(1) scale(2)"; mkAttr "mask" "url(#m)"]) = true.
Proof.
  split. { apply tidy_decl; try reflexivity; exists "", ""; vm_compute; auto. }
  split. { apply bd_number; [cbn; tauto|exact x_bad]. }
  split. { apply bd_fill, (bc_rgb D "1,2"); [reflexivity|vm_compute; discriminate|reflexivity]. }
  split. { apply bd_fill, (bc_hex D "12x" "x"); try reflexivity; [left; reflexivity|cbn; tauto]. }
  split. { apply bd_fill, (bc_component D "1,,3" ""); [reflexivity|reflexivity| |].
    - exists "1,", ",3". repeat split; [right; reflexivity|right; exists "3"; reflexivity].
    - intros l sg d m p r H _ _ _ _ _ Hd. destruct l, sg, d; try discriminate H. congruence. }
  split. { apply bd_fill, (bc_component D "1,2,x" "x"); [reflexivity|reflexivity| |].
    - exists "1,2,", "". repeat split; [right; reflexivity|left; reflexivity].
    - intros l sg d m p r H Bl _ _ Hs _ Hd. destruct l as [|c l]; cbn [append] in H; [|injection H as <- _; discriminate Bl].
      destruct Hs as [<-|[<-|[<-|[]]]]; cbn [append] in H; try discriminate H. destruct d as [|c d]; [congruence|]. injection H as <- _. reflexivity. }
  split. { apply bd_stroke, bc_word; try reflexivity. vm_compute. discriminate. }
  split. { apply bd_transform, (bt_no_call D "rotate(1)" " translate"); try reflexivity. right. reflexivity. }
  split. { apply bd_transform, (bt_no_args D "" "" "scale" "" ""); try reflexivity; [left; reflexivity|discriminate]. }
  split. { apply bd_mask, bs_no_url; try reflexivity; discriminate. }
  split. { apply (bd_dash D "1 x" "x"); [discriminate| |exact x_bad]. exists "1 ", "". repeat split; try discriminate. right. reflexivity. }
  vm_compute. reflexivity.
Qed.
Example C61_use_example : flat_defs before /\ is_definition before "use" = false /\ last_attr "href" [mkAttr "href" "#b"] = Some (String "#" "b") /\ ~ defines before "b"
  /\ accepts (with_el "use" [mkAttr "href" "#a"]) = true.
Proof. split; [exact before_flat|]. split; [reflexivity|]. split; [reflexivity|]. split; [intros H; apply before_defines in H; discriminate|]. vm_compute. reflexivity. Qed.
Example C61_path_example : (forall a b, fadd D a b = fadd D b a) /\ bad_path D "M1 2L3" /\ accepts (with_el "path" [mkAttr "d" "M1 2L3 4"]) = true.
Proof.
  split; [intros a b; apply sfadd_comm|]. split; [|vm_compute; reflexivity].
  exists "", "M1 2", [MoveTo false (V 1 1, V 2 1) []], "L"%char, 2, "3", [V 3 1], "". repeat split.
  - apply (spells_cons D (MoveTo false (V 1 1, V 2 1) []) "1 2" ""); [|apply spells_nil].
    exists [("", num NoSign "1" None); (" ", num NoSign "2" None)], "". vm_compute. auto.
  - exists [("", num NoSign "3" None)], "". vm_compute. auto.
Qed.
Definition in_gradient : list token := [TStart "svg" []; TStart "linearGradient" [mkAttr "id" "g"]].
Definition stop_doc (attrs : list attr) : presult D :=
  parse 1 StrictErrorMode (in_gradient ++ TStart "stop" attrs :: [TEnd "stop"; TEnd "linearGradient"; TEnd "svg"]) TermEOF.
Lemma gradient_flat : flat_defs in_gradient.
Proof. intros pre attrs post H. unfold in_gradient in H. repeat (destruct pre as [|? pre]; [discriminate H|injection H as <- H]). destruct pre; discriminate H. Qed.
Example C61_stop_example : flat_defs in_gradient /\ open_gradient in_gradient = true /\ bad_stop D [mkAttr "offset" "x"] /\ bad_stop D [mkAttr "stop-opacity" "x"]
  /\ accepts (stop_doc [mkAttr "offset" "5%"; mkAttr "stop-opacity" "1"]) = true.
Proof.
  split; [exact gradient_flat|]. split; [reflexivity|]. split; [apply (bst_offset D _ "x"); [cbn; tauto|exact x_bad|reflexivity]|].
  split; [apply (bst_opacity D _ "x"); [cbn; tauto|exact x_bad]|]. vm_compute. reflexivity.
Qed.
Example C61_strict_example : is_definition before "text" = false /\ ~ List.In "text" svg_names
  /\ bad_keyword "stroke-linecap" "wide" /\ attr_decls (mkAttr "stroke-linecap" "wide") [("stroke-linecap", "wide")]
  /\ accepts (with_el "text" []) = true /\ accepts (with_el "g" [mkAttr "stroke-linecap" "wide"]) = true.
Proof.
  split; [reflexivity|]. split; [cbn; intros H; repeat (destruct H as [H|H]; [discriminate H|]); exact H|].
  split. { eexists. split; [cbn; right; left; reflexivity|]. cbn. intros H. repeat (destruct H as [H|H]; [discriminate H|]). exact H. }
  split. { apply tidy_decl; try reflexivity; exists "", ""; vm_compute; auto. }
  vm_compute. auto.
Qed.

(** ** What is not reported *)
Lemma accepts_svg r : accepts r = true -> exists s log, r = PSvg s None log.
Proof. destruct r as [|s [e|] log| |]; try discriminate. eauto. Qed.
(** a mistake in an element of a definition that is not used *)
Theorem C61_definition_refuted : ~ (forall (E : Env) (fuel : nat) (mode : errorMode) pre name attrs post (tm : term), flat_defs pre -> bad_element E name attrs ->
  forall s log, parse (E := E) fuel mode (pre ++ TStart name attrs :: post) tm <> PSvg s None log).
Proof.
  intros H.
  destruct (accepts_svg (parse 1 StrictErrorMode ([TStart "svg" []; TStart "defs" []] ++ TStart "rect" [mkAttr "width" "x"] :: [TEnd "rect"; TEnd "defs"; TEnd "svg"]) TermEOF))
    as (s & log & K); [vm_compute; reflexivity|]. revert K. apply H.
  - intros pre attrs post Hp. destruct pre as [|? [|? [|? pre]]]; cbn in Hp; try discriminate Hp. injection Hp as <- <- <-. reflexivity.
  - apply (be_length D "rect" _ "width" "x"); [cbn; tauto|cbn; tauto|exact x_bad].
Qed.
Print Assumptions C61_definition_refuted.
(** an offset with a unit before the percent sign *)
Theorem C61_offset_refuted : ~ (forall (E : Env) (fuel : nat) (mode : errorMode) pre attrs v post (tm : term), flat_defs pre -> open_gradient pre = true ->
  List.In (mkAttr "offset" v) attrs -> bad_length E v ->
  forall s log, parse (E := E) fuel mode (pre ++ TStart "stop" attrs :: post) tm <> PSvg s None log).
Proof.
  intros H.
  destruct (accepts_svg (parse 1 StrictErrorMode (in_gradient ++ TStart "stop" [mkAttr "offset" "5%%"] :: [TEnd "stop"; TEnd "linearGradient"; TEnd "svg"]) TermEOF))
    as (s & log & K); [vm_compute; reflexivity|]. revert K. apply (H D 1 StrictErrorMode in_gradient [mkAttr "offset" "5%%"] "5%%"); [exact gradient_flat|reflexivity|left; reflexivity|].
  split; [reflexivity|]. intros l w m u r Hv Bl Bm Br. apply no_number_none.
  destruct l as [|c l]; cbn [append] in Hv; [|injection Hv as <- _; discriminate Bl].
  destruct w as [|c0 [|c1 [|c2 [|c3 w]]]]; cbn [append] in Hv.
  - vm_compute. reflexivity.
  - injection Hv as <- Hv. exfalso. destruct m as [|c m]; cbn [append] in Hv; [|injection Hv as <- _; discriminate Bm].
    destruct u; cbn in Hv; try discriminate Hv; try (subst r; discriminate Br). injection Hv as <-. discriminate Br.
  - injection Hv as <- <- _. vm_compute. reflexivity.
  - injection Hv as <- <- <- _. vm_compute. reflexivity.
  - discriminate Hv.
Qed.
Print Assumptions C61_offset_refuted.

(** * PropertiesTree: whole documents (C14, C20, C27, C31, C32, C40) *)
From Verif Require Import ProofsRoot ExTree ProofsF64 PropertiesStyle.
Local Open Scope go_scope.

(** C14: parsing a document with a meaning succeeds and shows exactly that meaning; [shows] is about
    view box, titles, descriptions, paths in order and masks.  [lenient] allows unsupported elements. *)
Theorem C14_document : forall (E : Env), (forall a b, fadd E a b = fadd E b a) -> name_table E ->
  forall (fuel : nat) (mode : errorMode) (lenient : bool) (dep : nat) (ns : list node) (vb : bounds E) (w : world E),
  dep <= fuel -> document E (shape E) lenient dep ns vb w -> (lenient = true -> mode <> StrictErrorMode) ->
  exists s log, parse (S fuel) mode (flat_map tokens ns) TermEOF = PSvg s None log /\ shows E (shape E) vb w s
    /\ sv_width s = text_attr "width" "" (root_attrs ns) /\ sv_height s = text_attr "height" "" (root_attrs ns).
Proof. exact @document_parses. Qed.
Print Assumptions C14_document.
Theorem C14_document_float64 : forall (O : Oracles), name_table (F64 O) ->
  forall (fuel : nat) (mode : errorMode) (lenient : bool) (dep : nat) (ns : list node) (vb : bounds (F64 O)) (w : world (F64 O)),
  dep <= fuel -> document (F64 O) (shape (F64 O)) lenient dep ns vb w -> (lenient = true -> mode <> StrictErrorMode) ->
  exists s log, parse (S fuel) mode (flat_map tokens ns) TermEOF = PSvg s None log /\ shows (F64 O) (shape (F64 O)) vb w s
    /\ sv_width s = text_attr "width" "" (root_attrs ns) /\ sv_height s = text_attr "height" "" (root_attrs ns).
Proof. exact (fun O => document_parses (F64_add_comm O)). Qed.
Print Assumptions C14_document_float64.
(** a document with title, gradient, definition, group, use, mask, and the figures it denotes *)
Example C14_example : name_table D /\ exists w, document D (shape D) false 1 ex_doc ex_box w /\ w_titles D w = ["a b"%string]
  /\ map parts_of (w_figs D w)
     = [[("line", [mkAttr "fill" "url(#a)"; mkAttr "x1" "5"])]; [("line", [mkAttr "id" "l"; mkAttr "x2" "5"])];
        [("line", [mkAttr "x1" "1"]); ("line", [mkAttr "id" "l"; mkAttr "x2" "5"]); ("line", [mkAttr "y2" "4"])];
        [("line", [mkAttr "y1" "2"])]]%string
  /\ option_map (fun m => length (snd m)) (w_masks D w "m") = Some 1
  /\ (exists g, w_grads D w "a" = Some g /\ length (gStops g) = 1)
  /\ w_masks D w "x" = None.
Proof. exact (conj names_D ex_document). Qed.

(** C20: the root element *)
Theorem C20_view_box : forall (E : Env) (fuel : nat) (attrs : list attr) (vb : bounds E) (c : cursor E), view_box attrs vb ->
  exists df c', drawFuncs fuel "svg" = Some df /\ df attrs c = (c', Ret tt) /\ sv_viewBox (c_svg c') = vb
    /\ sv_width (c_svg c') = text_attr "width" (sv_width (c_svg c)) attrs
    /\ sv_height (c_svg c') = text_attr "height" (sv_height (c_svg c)) attrs.
Proof. exact @root_reads. Qed.
Print Assumptions C20_view_box.
Theorem C20_wrong_count : forall (E : Env) (fuel : nat) (before after : list attr) (s : string) (vs : list (F E)) (vb : bounds E) (c : cursor E),
  view_box before vb -> spells_numbers E s vs -> length vs <> 4 ->
  element_fails fuel "svg" (before ++ mkAttr "viewBox" s :: after) c ErrParamMismatch.
Proof. exact @root_fails. Qed.
Print Assumptions C20_wrong_count.
Example C20_example :
  view_box (E := D) [mkAttr "viewBox" "0 0 200 100"; mkAttr "width" "7"] ex_box
  /\ spells_numbers D "1,2 3" [V 1 1; V 2 1; V 3 1].
Proof.
  split; [exact ex_view|].
  exists [(""%string, num NoSign "1" None); (","%string, num NoSign "2" None); (" "%string, num NoSign "3" None)], ""%string.
  vm_compute. auto.
Qed.

(** C27: use of a definition [ts], from any state: the shapes of the definition are drawn one after
    the other, at the offset (x, y), with the lengths of the same view box; [traces] says which shapes
    these are when there are groups and further uses, nested at most [k] deep.  The style stack is as
    before and the offset is (0, 0) again.  Only the path cursor of the state changes. *)
Theorem C27_use_partial : forall (E : Env), (forall a b, fadd E a b = fadd E b a) -> name_table E ->
  forall (k fuel : nat) (c : cursor E) grads defs attrs st rest id x y ts ps off p0,
  let vb := sv_viewBox (c_svg c) in
  k <= fuel -> sees c grads -> defs_agree defs (sv_defs (c_svg c)) -> c_stack c = st :: rest -> pc_path (c_pc c) = [] ->
  text_attr "href" "" attrs = ("#" ++ id)%string ->
  length_attr vb OfWidth "x" attrs x -> length_attr vb OfHeight "y" attrs y ->
  defs id = Some ts -> traces E vb grads defs k (x, y) st ts ps off -> outlines E (shape E) vb [] ps p0 ->
  exists df c', drawFuncs (S fuel) "use" = Some df /\ df attrs c = (c', Ret tt)
    /\ outlines E (shape E) vb [] ps (pc_path (c_pc c'))
    /\ c_stack c' = c_stack c /\ offset c' = (fnum E 0, fnum E 0)
    /\ c' = c_set_pc (c_pc c') c.
Proof. exact (fun E ac Hn k fuel c grads defs attrs st rest id x y ts ps off p0 Hk => use_element_any (shape E) _ 0 k (shape_faithful ac _) Hn fuel c grads defs attrs st rest id x y ts ps off p0 Hk eq_refl). Qed.
Print Assumptions C27_use_partial.
Example C27_example :
  match parse (E := D) 1 StrictErrorMode (tokens (Elem "svg" [] [Elem "defs" [] [Elem "line" [mkAttr "id" "l"; mkAttr "x2" "5"] []];
      Elem "use" [mkAttr "href" "#l"; mkAttr "x" "2"; mkAttr "y" "3"; mkAttr "fill" "red"] []])) TermEOF with
  | PSvg s None _ => map (fun p => (sp_path p, match st_filler (sp_style p) with Some (PPlain r g b a) => [r; g; b; a] | _ => [] end)) (sv_paths s)
  | _ => [] end = [([OpMoveTo (128, 192); OpLineTo (448, 192)], [255; 0; 0; 255])]%Z.
Proof. vm_compute. reflexivity. Qed.

(** C31: a gradient element with its stops, from any state outside titles and unfinished paths: the
    gradient known under its id afterwards has the direction, units, spread and stops written, and the
    other gradients are as before *)
Theorem C31_gradient : forall (E : Env), name_table E ->
  forall (fuel : nat) (grads : string -> option (gradient E)) par name attrs kids st id g g' (c : cursor E) rest,
  let vb := sv_viewBox (c_svg c) in
  styled E vb grads par attrs st ->
  gradient_of E vb name (part_of Transform st) attrs [] g -> attr_id attrs id -> grad_kids E vb id grads st kids g g' ->
  c_stack c = par :: rest -> c_inTitle c = false -> c_inDesc c = false -> pc_path (c_pc c) = [] -> sees c grads ->
  exists c', mapM (stepToken (S fuel)) (tokens (Elem name attrs kids)) c = (c', Ret tt) /\ sees c' (declare E id g' grads)
    /\ c_stack c' = c_stack c /\ sv_paths (c_svg c') = sv_paths (c_svg c).
Proof. exact @gradient_element. Qed.
Print Assumptions C31_gradient.
(** the stops are those written, in order, and nothing else of the gradient changes *)
Theorem C31_stops : forall (E : Env) (vb : bounds E) id grads par kids g g', grad_kids E vb id grads par kids g g' ->
  exists ss, gStops g' = gStops g ++ ss /\ gDirection g' = gDirection g /\ gUnits g' = gUnits g /\ gSpread g' = gSpread g
    /\ gMatrix g' = gMatrix g /\ Forall2 (is_stop E) (stop_elements kids) ss.
Proof. exact @grad_kids_stops. Qed.
Print Assumptions C31_stops.
Example C31_example : sees (cursor0 (E := D) StrictErrorMode) (fun _ => None)
  /\ exists g g', gradient_of D ex_box "linearGradient" (part_of Transform (defaultStyle (E := D))) [mkAttr "id" "a"; mkAttr "y2" "50%"] [] g
     /\ match gDirection g with Some (Linear x1 y1 x2 y2) => [x1; y1; x2; y2] | _ => [] end = [V 0 1; V 0 1; V 1 1; V 1 2]
     /\ grad_kids D ex_box (Some "a"%string) (fun _ => None) defaultStyle [Elem "stop" [mkAttr "stop-color" "blue"; mkAttr "offset" "50%"] []] g g'.
Proof.
  split; [intros i; reflexivity|].
  eexists _, _. split; [apply ex_grad_of|]. split; [vm_compute; reflexivity|].
  eapply gk_stop; [plain_style|reflexivity|apply ex_stop|apply gk_nil].
Qed.

(** C32, first half: the masks of a document and what is drawn inside them *)
Theorem C32_masks_partial : forall (E : Env), (forall a b, fadd E a b = fadd E b a) -> name_table E ->
  forall (fuel : nat) (mode : errorMode) (lenient : bool) (dep : nat) (ns : list node) (vb : bounds E) (w : world E),
  dep <= fuel -> document E (shape E) lenient dep ns vb w -> (lenient = true -> mode <> StrictErrorMode) ->
  exists s log, parse (S fuel) mode (flat_map tokens ns) TermEOF = PSvg s None log
    /\ Forall2 (drawn E (shape E) vb) (w_figs E w) (sv_paths s)
    /\ (forall id, w_masks E w id = None -> mget id (sv_masks s) = None)
    /\ forall id b figs, w_masks E w id = Some (b, figs) ->
         exists m, mget id (sv_masks s) = Some m /\ mk_id m = id /\ (mk_x m, mk_y m, mk_w m, mk_h m) = b /\ Forall2 (drawn E (shape E) vb) figs (mk_paths m).
Proof. exact (fun E ac Hn fuel mode lenient dep ns vb w => document_masks (shape E) mode 0 (shape_faithful ac mode) Hn fuel lenient dep ns vb w). Qed.
Print Assumptions C32_masks_partial.
Example C32_example : exists w, document D (shape D) false 1 ex_doc ex_box w /\ option_map (fun m => length (snd m)) (w_masks D w "m") = Some 1
  /\ length (w_figs D w) = 4.
Proof.
  destruct ex_document as (w & H & _ & Hf & Hm & _). exists w. split; [exact H|]. split; [exact Hm|].
  rewrite <- (map_length parts_of), Hf. reflexivity.
Qed.

(** C40: a reference gives the gradient as it is known at that point, stops without a colour take the
    colour of the inherited paint; an unknown id gives black *)
Theorem C40_references : forall (E : Env), name_table E ->
  forall (c : cursor E) grads v id (st : style E), sees c grads -> url_ref v id ->
  let seen old := match grads id with Some g => PGrad (with_stops E g old) | None => PPlain 0 0 0 255 end in
  readStyleAttr st "fill" v c = (c, Ret (put_part FillPaint (Some (seen (part_of FillPaint st))) st))
  /\ readStyleAttr st "stroke" v c = (c, Ret (put_part StrokePaint (Some (seen (part_of StrokePaint st))) st)).
Proof. exact @references. Qed.
Print Assumptions C40_references.
Example C40_example : url_ref "url( #a )" "a" /\
  match parse (E := D) 1 StrictErrorMode (tokens (Elem "svg" [mkAttr "fill" "red"]
     [Elem "path" [mkAttr "d" "M1 1L2 2"; mkAttr "fill" "url(#a)"] [];
      Elem "linearGradient" [mkAttr "id" "a"] [Elem "stop" [] []; Elem "stop" [mkAttr "stop-color" "blue"] []];
      Elem "path" [mkAttr "d" "M1 1L2 2"; mkAttr "fill" "url(#a)"] []])) TermEOF with
  | PSvg s None _ => map (fun p => match st_filler (sp_style p) with
                                   | Some (PPlain r g b a) => [Some (CNRGBA r g b a)]
                                   | Some (PGrad g) => map stColor (gStops g) | None => [] end) (sv_paths s)
  | _ => [] end = [[Some (CNRGBA 0 0 0 255)]; [Some (CNRGBA 255 0 0 255); Some (CNRGBA 0 0 255 255)]]%Z.
Proof. split; [exists " "%string, " "%string; repeat split|vm_compute; reflexivity]. Qed.

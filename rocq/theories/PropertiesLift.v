(** * PropertiesLift: outlines in whole documents (C42; C01, C07, C08, C22, C23, C27 for documents) *)
From Coq Require Import Reals Lra Lia.
From Verif Require Import SpecLift ProofsArc2 ProofsRoot ProofsLift2 ProofsLift3 ProofsUse SpecRect ExTree PropertiesStyle PropertiesTree PropertiesArc PropertiesRect.

(** ** C42: an outline depends on the element, the view box and the offset only *)
(** [alone mode m vb off name attrs p]: the element alone, in a parser that has read nothing else, with
    that view box and offset, draws [p].  A document whose elements have outlines when alone, with no
    restriction on their geometry, is parsed to exactly those outlines in document order. *)
Theorem C42_own_outline : forall (E : Env), name_table E ->
  forall (fuel : nat) (mode : errorMode) (lenient : bool) (dep m : nat) (ns : list node) (vb : bounds E) (w : world E),
  m + dep <= fuel -> document E (alone E mode m) lenient dep ns vb w -> (lenient = true -> mode <> StrictErrorMode) ->
  exists s log, parse (S fuel) mode (flat_map tokens ns) TermEOF = PSvg s None log /\ shows E (alone E mode m) vb w s
    /\ sv_width s = text_attr "width" "" (root_attrs ns) /\ sv_height s = text_attr "height" "" (root_attrs ns).
Proof. exact @document_alone. Qed.
Print Assumptions C42_own_outline.
(** that outline is unique *)
Theorem C42_one_outline : forall (E : Env) md m vb off name attrs p q,
  alone E md m vb off name attrs p -> alone E md m vb off name attrs q -> p = q.
Proof. exact @alone_same. Qed.
Print Assumptions C42_one_outline.
(** the documents of C14 are such documents *)
Theorem C42_documents : forall (E : Env), (forall a b, fadd E a b = fadd E b a) ->
  forall mode m lenient dep ns vb w, document E (SpecDoc.shape E) lenient dep ns vb w -> document E (alone E mode m) lenient dep ns vb w.
Proof. exact @shape_documents. Qed.
Print Assumptions C42_documents.
Example C42_example : name_table D /\ exists w, document D (alone D StrictErrorMode 0) false 1 ex_doc ex_box w /\ length (w_figs D w) = 4.
Proof.
  split; [exact names_D|]. destruct ex_document as (w & H & _ & K & _). exists w.
  split; [exact (C42_documents D (F64_add_comm demoO) StrictErrorMode 0 false 1 ex_doc ex_box w H)|].
  apply (f_equal (@length _)) in K. rewrite map_length in K. exact K.
Qed.
(** documents of one figure, for the examples *)
Definition zero_box (E : Env) : bounds E := mkB (f0 E) (f0 E) (f0 E) (f0 E).
Lemma one_figure (E : Env) mode m name attrs p : attrs_decls attrs [] -> alone E mode m (zero_box E) (origin E) name attrs p -> p <> [] ->
  exists w, document E (alone E mode m) false 0 [Elem "svg" [] [Elem name attrs []]] (zero_box E) w
    /\ w_figs E w = [mkFig E [(origin E, name, attrs)] defaultStyle].
Proof.
  intros Ha Hp Hne. eexists. split.
  - exists [], [], [Elem name attrs []], [], defaultStyle. eexists _, _. split; [reflexivity|]. split; [reflexivity|]. split; [reflexivity|].
    split; [exists []; split; constructor|]. split.
    { exists (f0 E), (f0 E), (f0 E), (f0 E), (f0 E), (f0 E). repeat split. unfold zero_box. destruct (feqb E (f0 E) (f0 E)); reflexivity. }
    eapply sems_cons; [|apply sems_nil]. eapply sem_shape; [exists []; split; [exact Ha|constructor]| |apply sems_nil].
    exists p. split; [apply (one_outline (alone E mode m)); exact Hp|reflexivity].
  - destruct p; [destruct (Hne eq_refl)|]. reflexivity.
Qed.
(** a path whose data draws something *)
Definition draws_some (E : Env) (s : string) : bool :=
  match pathF [mkAttr "d" s] (start_at E StrictErrorMode (zero_box E) (origin E)) with
  | (c, Ret _) => match pc_path (c_pc c) with [] => false | _ => true end
  | _ => false
  end.
Lemma one_path (E : Env) s : draws_some E s = true ->
  exists w, document E (alone E StrictErrorMode 0) false 0 [Elem "svg" [] [Elem "path" [mkAttr "d" s] []]] (zero_box E) w
    /\ w_figs E w = [mkFig E [(origin E, "path"%string, [mkAttr "d" s])] defaultStyle].
Proof.
  unfold draws_some. destruct (pathF _ _) as [c [[]|e| |]] eqn:H; try discriminate. intros Hc. apply one_figure with (p := pc_path (c_pc c)).
  - skips.
  - split; [cbn; auto 10|]. split; [intros [K|K]; discriminate|]. exists pathF, c. auto.
  - destruct (pc_path (c_pc c)); discriminate.
Qed.
(** a path with a repeated arc, which no other theorem speaks about, is stored as it is drawn alone *)
Example C42_odd_example : exists w, document D (alone D StrictErrorMode 0) false 0 [Elem "svg" [] [Elem "path" [mkAttr "d" "M1 1A5 5 0 0 1 2 2 5 5 0 0 1 3 3"] []]] (zero_box D) w
  /\ w_figs D w = [mkFig D [(origin D, "path"%string, [mkAttr "d" "M1 1A5 5 0 0 1 2 2 5 5 0 0 1 3 3"])] defaultStyle].
Proof. apply one_path. vm_compute. reflexivity. Qed.

(** ** C01: path elements in documents *)
(** In every such document, every path element, in the body, in a mask or drawn by a use, whose d attribute spells the
    commands [cs] is stored as what SVG says those commands draw, shifted by the offset of the use. *)
Theorem C01_document : forall (E : Env), (forall a b, fadd E a b = fadd E b a) -> name_table E ->
  forall (fuel : nat) (mode : errorMode) (lenient : bool) (dep m : nat) (ns : list node) (vb : bounds E) (w : world E),
  m + dep <= fuel -> document E (alone E mode m) lenient dep ns vb w -> (lenient = true -> mode <> StrictErrorMode) ->
  exists s log, parse (S fuel) mode (flat_map tokens ns) TermEOF = PSvg s None log
    /\ stores E (fun f p => forall l off attrs d cs, fg_shapes E f = l ++ [(off, "path"%string, attrs)] -> attr_once "d" attrs d -> spells E d cs -> closes_open E false cs = true ->
         p = draws E off cs) w s.
Proof.
  exact (fun E add_comm Hn fuel mode lenient dep m ns vb w => document_stores Hn _ fuel mode lenient dep m ns vb w (fun f p Ha l off attrs d cs Hp Hd => last_path mode m vb _ l off attrs d p _ (fun Ha => path_figure add_comm mode m vb _ _ p d cs Ha Hd) Ha Hp Hd)).
Qed.
Print Assumptions C01_document.
Theorem C01_document_float64 : forall (O : Oracles), name_table (F64 O) ->
  forall (fuel : nat) (mode : errorMode) (lenient : bool) (dep m : nat) (ns : list node) (vb : bounds (F64 O)) (w : world (F64 O)),
  m + dep <= fuel -> document (F64 O) (alone (F64 O) mode m) lenient dep ns vb w -> (lenient = true -> mode <> StrictErrorMode) ->
  exists s log, parse (S fuel) mode (flat_map tokens ns) TermEOF = PSvg s None log
    /\ stores (F64 O) (fun f p => forall l off attrs d cs, fg_shapes (F64 O) f = l ++ [(off, "path"%string, attrs)] -> attr_once "d" attrs d -> spells (F64 O) d cs ->
         closes_open (F64 O) false cs = true -> p = draws (F64 O) off cs) w s.
Proof. exact (fun O => C01_document (F64 O) (F64_add_comm O)). Qed.
Print Assumptions C01_document_float64.
Example C01_document_example : name_table D
  /\ (exists w, document D (alone D StrictErrorMode 0) false 0 [Elem "svg" [] [Elem "path" [mkAttr "d" ex_text] []]] (zero_box D) w
      /\ w_figs D w = [mkFig D [(origin D, "path"%string, [mkAttr "d" ex_text])] defaultStyle])
  /\ attr_once "d" [mkAttr "d" ex_text] ex_text /\ spells D ex_text ex_cmds /\ closes_open D false ex_cmds = true.
Proof.
  split; [exact names_D|]. split; [apply one_path; vm_compute; reflexivity|].
  split; [exists [], []; repeat split|]. split; [exact ex_spells|vm_compute; reflexivity].
Qed.

Local Open Scope R_scope.
(** ** Arcs, ellipses and rounded rectangles in documents, exact arithmetic *)
(** Every path element with arcs is stored such that the last curve of every arc ends at the end point of the arc. *)
Theorem C07_document_real : forall (O : ROracles), let K := RealEnv O in name_table K ->
  forall (fuel : nat) (mode : errorMode) (lenient : bool) (dep m : nat) (ns : list node) (vb : bounds K) (w : world K),
  (m + dep <= fuel)%nat -> document K (alone K mode m) lenient dep ns vb w -> (lenient = true -> mode <> StrictErrorMode) ->
  exists s log, parse (S fuel) mode (flat_map tokens ns) TermEOF = PSvg s None log
    /\ stores K (fun f p => forall l off attrs lead body ks, fg_shapes K f = (l ++ [(off, "path"%string, attrs)])%list -> attr_once "d" attrs (lead ++ body) ->
         seps lead = true -> spells_steps K body ks -> steps_close K false ks = true ->
         exists e, SpecArc.drawn K (fun _ _ q o e => ends_at K q o /\ e = q) off (pen0 K) ks p e) w s.
Proof.
  exact (fun O Hn fuel mode lenient dep m ns vb w => document_stores Hn _ fuel mode lenient dep m ns vb w
    (fun f p Ha l off attrs lead body ks Hp Hd => last_path mode m vb _ l off attrs _ p _ (fun Ha => arc_figure_end O mode m vb _ _ p lead body ks Ha Hd) Ha Hp Hd)).
Qed.
Print Assumptions C07_document_real.
(** Outside a use every arc with positive radii and an end point other than the current point is stored as the arc of SVG. *)
Theorem C08_document : forall (O : ROracles), let K := RealEnv O in name_table K ->
  forall (fuel : nat) (mode : errorMode) (lenient : bool) (dep m : nat) (ns : list node) (vb : bounds K) (w : world K),
  (m + dep <= fuel)%nat -> document K (alone K mode m) lenient dep ns vb w -> (lenient = true -> mode <> StrictErrorMode) ->
  exists s log, parse (S fuel) mode (flat_map tokens ns) TermEOF = PSvg s None log
    /\ stores K (fun f p => forall l attrs lead body ks, fg_shapes K f = (l ++ [((0, 0), "path"%string, attrs)])%list -> attr_once "d" attrs (lead ++ body) ->
         seps lead = true -> spells_steps K body ks -> steps_close K false ks = true ->
         exists e, SpecArc.drawn K (fun s a q o e => let '(rx, ry, deg, fa, fs) := a in
             e = q /\ (0 < rx -> 0 < ry -> s <> q -> forall large sweep : bool,
               (large = true <-> fa <> 0) -> (sweep = true <-> fs <> 0) -> svg_arc s rx ry deg large sweep q o))
           (0, 0) (pen0 K) ks p e) w s.
Proof.
  exact (fun O Hn fuel mode lenient dep m ns vb w => document_stores Hn _ fuel mode lenient dep m ns vb w
    (fun f p Ha l attrs lead body ks Hp Hd => last_path mode m vb _ l (0, 0) attrs _ p _ (fun Ha => arc_figure_svg O mode m vb _ p lead body ks Ha Hd) Ha Hp Hd)).
Qed.
Print Assumptions C08_document.
Lemma names_A : name_table KA. Proof. intros s c H. discriminate. Qed.
Lemma arc_alone (off : R * R) : exists p, alone KA StrictErrorMode 0 (zero_box KA) off "path" [mkAttr "d" "M1 2a5 4 0 0 1 2 2z"] p /\ p <> [].
Proof.
  destruct C07_real_example as [H1 H2].
  destruct (C07_arc_end_real demoA "" _ _ (c_pc (start_at KA StrictErrorMode (zero_box KA) off)) eq_refl H1 H2) as (c' & o & s & H & Hd & Hp & _).
  exists (pc_path c'). split.
  - split; [cbn; auto 10|]. split; [intros [K|K]; discriminate|]. exists pathF. eexists. split; [reflexivity|].
    split; [eapply path_once; [exists [], []; repeat split|exact H]|reflexivity].
  - rewrite Hp. inversion Hd. subst. discriminate.
Qed.
Example C08_document_example : name_table KA
  /\ (exists w, document KA (alone KA StrictErrorMode 0) false 0 [Elem "svg" [] [Elem "path" [mkAttr "d" "M1 2a5 4 0 0 1 2 2z"] []]] (zero_box KA) w
      /\ w_figs KA w = [mkFig KA [(origin KA, "path"%string, [mkAttr "d" "M1 2a5 4 0 0 1 2 2z"])] defaultStyle])
  /\ origin KA = (0, 0) /\ spells_steps KA "M1 2a5 4 0 0 1 2 2z" arc_example /\ steps_close KA false arc_example = true.
Proof.
  split; [exact names_A|]. destruct (arc_alone (origin KA)) as (p & H1 & H2). split; [eapply one_figure; [skips|exact H1|exact H2]|].
  split; [unfold origin; cbn; apply f_equal2; lra|exact C07_real_example].
Qed.
(** Every circle and ellipse is stored as the whole ellipse. *)
Theorem C23_document : forall (O : ROracles), let K := RealEnv O in name_table K ->
  forall (fuel : nat) (mode : errorMode) (lenient : bool) (dep m : nat) (ns : list node) (vb : bounds K) (w : world K),
  (m + dep <= fuel)%nat -> document K (alone K mode m) lenient dep ns vb w -> (lenient = true -> mode <> StrictErrorMode) ->
  exists s log, parse (S fuel) mode (flat_map tokens ns) TermEOF = PSvg s None log
    /\ stores K (fun f p => forall off attrs (cx cy r rx ry : R),
         length_attr (E := K) vb OfWidth "cx" attrs cx -> length_attr (E := K) vb OfHeight "cy" attrs cy ->
         (fg_shapes K f = [(off, "circle"%string, attrs)] -> length_attr (E := K) vb OfDiagonal "r" attrs r -> has_attr "rx" attrs = false -> has_attr "ry" attrs = false -> r <> 0 ->
            p = whole_ellipse (cx + fst off) (cy + snd off) r r)
         /\ (fg_shapes K f = [(off, "ellipse"%string, attrs)] -> length_attr (E := K) vb OfWidth "rx" attrs rx -> length_attr (E := K) vb OfHeight "ry" attrs ry -> has_attr "r" attrs = false ->
            rx <> 0 -> ry <> 0 -> p = whole_ellipse (cx + fst off) (cy + snd off) rx ry)) w s.
Proof.
  exact (fun O Hn fuel mode lenient dep m ns vb w => document_stores Hn _ fuel mode lenient dep m ns vb w
    (fun f p Ha off attrs cx cy r rx ry Hx Hy => let H := ellipse_figure O mode m vb off attrs p cx cy r rx ry Hx Hy in
       conj (single mode m vb _ off _ attrs p _ (proj1 H) Ha) (single mode m vb _ off _ attrs p _ (proj2 H) Ha))).
Qed.
Print Assumptions C23_document.
Definition oval : list attr := [mkAttr "rx" "5"; mkAttr "ry" "2"].
Lemma oval_lengths vb : length_attr (E := KA) vb OfWidth "rx" oval 5 /\ length_attr (E := KA) vb OfHeight "ry" oval 2
  /\ length_attr (E := KA) vb OfWidth "cx" oval (f0 KA) /\ length_attr (E := KA) vb OfHeight "cy" oval (f0 KA).
Proof. repeat split; first [len 5 "5" | len 2 "2"]. Qed.
Example C23_document_example : exists w, document KA (alone KA StrictErrorMode 0) false 0 [Elem "svg" [] [Elem "ellipse" oval []]] (zero_box KA) w
      /\ w_figs KA w = [mkFig KA [(origin KA, "ellipse"%string, oval)] defaultStyle].
Proof.
  destruct (oval_lengths (zero_box KA)) as (L1 & L2 & L3 & L4).
  destruct (C23_round_real demoA 0 oval (f0 KA) (f0 KA) 0 5 2 (start_at KA StrictErrorMode (zero_box KA) (origin KA)) eq_refl L3 L4) as [_ H].
  eapply one_figure; [skips| |].
  - split; [cbn; auto 10|]. split; [intros [K|K]; discriminate|]. apply H; [exact L1|exact L2|reflexivity|lra|lra].
  - discriminate.
Qed.
(** Every rounded rectangle whose effective radii are equal is stored as the rounded outline, inside the rectangle. *)
Theorem C22_document_partial : forall (O : ROracles), let K := RealEnv O in name_table K ->
  forall (fuel : nat) (mode : errorMode) (lenient : bool) (dep m : nat) (ns : list node) (vb : bounds K) (w : world K),
  (1 <= m)%nat -> (m + dep <= fuel)%nat -> document K (alone K mode m) lenient dep ns vb w -> (lenient = true -> mode <> StrictErrorMode) ->
  exists s log, parse (S fuel) mode (flat_map tokens ns) TermEOF = PSvg s None log
    /\ stores K (fun f p => forall off attrs (x y w h rx ry : R), fg_shapes K f = [(off, "rect"%string, attrs)] ->
         length_attr (E := K) vb OfWidth "x" attrs x -> length_attr (E := K) vb OfHeight "y" attrs y ->
         length_attr (E := K) vb OfWidth "width" attrs w -> length_attr (E := K) vb OfHeight "height" attrs h ->
         length_attr (E := K) vb OfWidth "rx" attrs rx -> length_attr (E := K) vb OfHeight "ry" attrs ry ->
         let r := auto_radius rx ry (w / 2) in
         let minX := x + fst off in let minY := y + snd off in
         let maxX := minX + w in let maxY := minY + h in
         0 < w -> 0 < h -> 0 <= rx -> 0 <= ry -> 0 < r -> auto_radius ry rx (h / 2) = r ->
         Rabs minX <= 4194304 -> Rabs maxX <= 4194304 -> Rabs minY <= 4194304 -> Rabs maxY <= 4194304 ->
         round_outline grid_R r minX minY maxX maxY p /\ outline_inside minX minY maxX maxY p) w s.
Proof.
  exact (fun O Hn fuel mode lenient dep m ns vb w H1 => document_stores Hn _ fuel mode lenient dep m ns vb w
    (fun f p Ha off attrs x y w' h rx ry Hp => single mode m vb _ off _ attrs p _ (fun Ha => rect_figure O mode m vb off attrs p x y w' h rx ry H1 Ha) Ha Hp)).
Qed.
Print Assumptions C22_document_partial.
Example C22_document_example : exists w, document KR (alone KR StrictErrorMode 1) false 0 [Elem "svg" [] [Elem "rect" rounded []]] (zero_box KR) w
      /\ w_figs KR w = [mkFig KR [(origin KR, "rect"%string, rounded)] defaultStyle].
Proof.
  destruct C22_rounded_example as (p & H & (k1 & k2 & k3 & k4 & e1 & e2 & e3 & e4 & Hp & _) & _). eapply one_figure; [skips| |].
  - split; [cbn; auto 10|]. split; [intros [K|K]; discriminate|]. exact H.
  - rewrite Hp. discriminate.
Qed.

(** ** C27: use of any shape *)
(** As C27_use_partial, for definitions of any shapes that draw something alone; the path is made of the
    outlines they draw alone at their offsets. *)
Theorem C27_use_alone_partial : forall (E : Env), name_table E ->
  forall (fuel m k : nat) (c : cursor E) grads defs attrs st rest id x y ts ps off p,
  let vb := sv_viewBox (c_svg c) in
  (m + k <= fuel)%nat -> sees c grads -> defs_agree defs (sv_defs (c_svg c)) -> c_stack c = st :: rest -> pc_path (c_pc c) = [] ->
  text_attr "href" "" attrs = ("#" ++ id)%string ->
  length_attr vb OfWidth "x" attrs x -> length_attr vb OfHeight "y" attrs y ->
  defs id = Some ts -> traces E vb grads defs k (x, y) st ts ps off -> outlines E (alone E (pc_mode (c_pc c)) m) vb [] ps p ->
  exists df c', drawFuncs (S fuel) "use" = Some df /\ df attrs c = (c', Ret tt) /\ pc_path (c_pc c') = p
    /\ c_stack c' = c_stack c /\ offset c' = (fnum E 0, fnum E 0) /\ c' = c_set_pc (c_pc c') c.
Proof. exact @use_alone. Qed.
Print Assumptions C27_use_alone_partial.
(** The whole definition is stored as one path, with the style of the use element. *)
Theorem C27_stored : forall (E : Env), name_table E ->
  forall (fuel m k : nat) (c : cursor E) grads defs par rest attrs st id x y ts ps off p,
  let vb := sv_viewBox (c_svg c) in
  (m + k <= fuel)%nat -> sees c grads -> defs_agree defs (sv_defs (c_svg c)) -> c_stack c = par :: rest -> pc_path (c_pc c) = [] ->
  c_inDefs c = false -> c_inMask c = false ->
  styled E vb grads par attrs st -> text_attr "href" "" attrs = ("#" ++ id)%string ->
  length_attr vb OfWidth "x" attrs x -> length_attr vb OfHeight "y" attrs y ->
  defs id = Some ts -> traces E vb grads defs k (x, y) st ts ps off -> outlines E (alone E (pc_mode (c_pc c)) m) vb [] ps p ->
  exists c', stepToken (S fuel) (TStart "use" attrs) c = (c', Ret tt) /\ c_stack c' = st :: par :: rest
    /\ sv_paths (c_svg c') = (sv_paths (c_svg c) ++ match p with [] => [] | _ => [mkSvgPath p st] end)%list.
Proof. exact @use_stored. Qed.
Print Assumptions C27_stored.
(** So the elements of the definition do not keep their own styles: a red and a blue line used together are one black path ... *)
Definition seen_paths (mode : errorMode) (kids : list node) : list (path * list Z) :=
  match parse (E := D) 2 mode (tokens (Elem "svg" [] kids)) TermEOF with
  | PSvg s None _ => map (fun p => (sp_path p, match st_filler (sp_style p) with Some (PPlain r g b a) => [r; g; b; a] | _ => [] end)) (sv_paths s)
  | _ => [] end.
Definition a_path (d : string) : node := Elem "path" [mkAttr "d" d] [].
Theorem C27_group_refuted : forall mode, seen_paths mode
  [Elem "defs" [] [Elem "g" [mkAttr "id" "k"] [Elem "line" [mkAttr "fill" "red"; mkAttr "x2" "5"] []; Elem "line" [mkAttr "fill" "blue"; mkAttr "y2" "5"] []]];
   Elem "use" [mkAttr "href" "#k"; mkAttr "x" "1"] []]
  = [([OpMoveTo (64, 0); OpLineTo (384, 0); OpMoveTo (64, 0); OpLineTo (64, 320)], [0; 0; 0; 255])]%Z.
Proof. destruct mode; vm_compute; reflexivity. Qed.
Print Assumptions C27_group_refuted.
(** ... a path element discards what the definition drew before it ... *)
Theorem C27_path_refuted : forall mode, seen_paths mode
  [Elem "defs" [] [Elem "g" [mkAttr "id" "k"] [a_path "M1 1L2 2"; a_path "M3 3L4 4"]]; Elem "use" [mkAttr "href" "#k"] []]
  = [([OpMoveTo (192, 192); OpLineTo (256, 256)], [0; 0; 0; 255])]%Z.
Proof. destruct mode; vm_compute; reflexivity. Qed.
Print Assumptions C27_path_refuted.
(** ... a group whose elements have ids of their own is stored without them: nothing is drawn, and what
    follows the use element is painted in its style ... *)
Theorem C27_ids_refuted : forall mode, seen_paths mode
  [Elem "defs" [] [Elem "g" [mkAttr "id" "k"] [Elem "line" [mkAttr "id" "l"; mkAttr "x2" "5"] []]];
   Elem "use" [mkAttr "href" "#k"; mkAttr "fill" "#0000ff"] []; Elem "line" [mkAttr "x2" "7"] []]
  = [([OpMoveTo (0, 0); OpLineTo (448, 0)], [0; 0; 255; 255])]%Z.
Proof. destruct mode; vm_compute; reflexivity. Qed.
Print Assumptions C27_ids_refuted.
(** ... and a use inside the definition forgets the offset around it, also for the elements after it *)
Theorem C27_nested_refuted : forall mode, seen_paths mode
  [Elem "defs" [] [Elem "line" [mkAttr "id" "l"; mkAttr "x2" "5"] [];
     Elem "g" [mkAttr "id" "k"] [Elem "use" [mkAttr "href" "#l"; mkAttr "x" "3"] []; Elem "line" [mkAttr "y2" "4"] []]];
   Elem "use" [mkAttr "href" "#k"; mkAttr "x" "100"] []]
  = [([OpMoveTo (192, 0); OpLineTo (512, 0); OpMoveTo (0, 0); OpLineTo (0, 256)], [0; 0; 0; 255])]%Z.
Proof. destruct mode; vm_compute; reflexivity. Qed.
Print Assumptions C27_nested_refuted.
(** The offset does not reach the end points of arcs, even with exact arithmetic: a path of one M and one A drawn by a
    use at (x, y) begins at its first point plus (x, y) and ends at its last point itself. *)
Theorem C27_arc_refuted : forall (O : ROracles), let K := RealEnv O in
  forall mode m vb (off : R * R) attrs p0 s (a p : R * R) (args : arc_args K),
  alone K mode m vb off "path" attrs p0 -> attr_once "d" attrs s ->
  spells_steps K s [Plain (MoveTo (E := K) false a []); ArcTo (E := K) false args p] ->
  exists cs b c, p0 = OpMoveTo (grid_R (fst a + fst off, snd a + snd off)) :: cs ++ [OpCubicTo b c (grid_R p)].
Proof. exact use_arc. Qed.
Print Assumptions C27_arc_refuted.
(** in float64: <use x="100" y="50"> of the path M1 1A5 5 0 0 1 2 2 ends at (2, 2) *)
Example C27_arc_example :
  match parse (E := D) 1 StrictErrorMode (tokens (Elem "svg" [] [Elem "defs" [] [Elem "path" [mkAttr "id" "l"; mkAttr "d" "M1 1A5 5 0 0 1 2 2"] []];
      Elem "use" [mkAttr "href" "#l"; mkAttr "x" "100"; mkAttr "y" "50"] []])) TermEOF with
  | PSvg s None _ => match sv_paths s with [p] => (hd_error (sp_path p), match rev (sp_path p) with OpCubicTo _ _ e :: _ => Some e | _ => None end) | _ => (None, None) end
  | _ => (None, None) end = (Some (OpMoveTo (6464, 3264)), Some (128, 128))%Z.
Proof. vm_compute. reflexivity. Qed.

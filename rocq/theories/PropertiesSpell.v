(** * PropertiesSpell: elements written in another way (C58) *)
From Coq Require Import ZArith Reals Lra Lia.
From Verif Require Import F64 RealEnv SpecLong SpecSpell ProofsSpell ProofsF64 ExPath ExShape ExTree.
Local Open Scope go_scope.

(** ** C58: an element can be written in another way anywhere in a document *)
(** A document in which elements are respelled (the same style declarations as attributes or in a style attribute,
    another shape element with the same outline) gives the same drawing.  With [d], also inside definitions. *)
Theorem C58_respelled : forall (E : Env) (d : bool) fuel mode ts ts' (s : svg E) log,
  Forall2 (respelled_token E d) ts ts' -> parse fuel mode ts TermEOF = PSvg s None log ->
  exists s' log', parse fuel mode ts' TermEOF = PSvg s' None log' /\ same_svg s s'.
Proof. exact @respelled_parse. Qed.
Print Assumptions C58_respelled.
(** Path elements whose data have the same longhand *)
Theorem C58_paths : forall (E : Env) (add_comm : forall a b, fadd E a b = fadd E b a) l l' s t (cs ds : list (cmd E)),
  attr_once "d" l s -> attr_once "d" l' t -> spells E s cs -> spells E t ds -> closes_open E false cs = true ->
  longhand E (pen0 E) cs = longhand E (pen0 E) ds -> same_outline E "path" l "path" l'.
Proof. exact @paths_alike. Qed.
Print Assumptions C58_paths.
(** Lines, polylines, polygons and rectangles are paths *)
Theorem C58_line : forall (E : Env) (add_comm : forall a b, fadd E a b = fadd E b a) l l' t x1 y1 x2 y2 (cs : list (cmd E)),
  (forall vb, length_attr vb OfWidth "x1" l x1 /\ length_attr vb OfHeight "y1" l y1 /\ length_attr vb OfWidth "x2" l x2 /\ length_attr vb OfHeight "y2" l y2) ->
  attr_once "d" l' t -> spells E t cs -> longhand E (pen0 E) cs = longhand E (pen0 E) [MoveTo false (x1, y1) [(x2, y2)]] ->
  same_outline E "line" l "path" l' /\ same_outline E "path" l' "line" l.
Proof. exact @line_path. Qed.
Print Assumptions C58_line.
Theorem C58_polyline : forall (E : Env) (add_comm : forall a b, fadd E a b = fadd E b a) l l' s t p ps (cs : list (cmd E)),
  attr_once "points" l s -> spells_numbers E s (flat_map (p1 E) (p :: ps)) -> 2 <= List.length ps ->
  attr_once "d" l' t -> spells E t cs -> longhand E (pen0 E) cs = longhand E (pen0 E) [MoveTo false p ps] ->
  same_outline E "polyline" l "path" l' /\ same_outline E "path" l' "polyline" l.
Proof. exact @polyline_path. Qed.
Print Assumptions C58_polyline.
Theorem C58_polygon : forall (E : Env) (add_comm : forall a b, fadd E a b = fadd E b a) l l' s t p ps (cs : list (cmd E)),
  attr_once "points" l s -> spells_numbers E s (flat_map (p1 E) (p :: ps)) -> 2 <= List.length ps ->
  attr_once "d" l' t -> spells E t cs -> longhand E (pen0 E) cs = longhand E (pen0 E) [MoveTo false p ps; ClosePath] ->
  same_outline E "polygon" l "path" l' /\ same_outline E "path" l' "polygon" l.
Proof. exact @polygon_path. Qed.
Print Assumptions C58_polygon.
Theorem C58_rect : forall (O : ROracles) l l' t (x y w h rx ry : R) cs, let E := RealEnv O in
  (forall vb, length_attr (E := E) vb OfWidth "x" l x /\ length_attr (E := E) vb OfHeight "y" l y /\ length_attr (E := E) vb OfWidth "width" l w /\ length_attr (E := E) vb OfHeight "height" l h
              /\ length_attr (E := E) vb OfWidth "rx" l rx /\ length_attr (E := E) vb OfHeight "ry" l ry) ->
  (w <> 0 -> h <> 0 -> rx <= 0 -> ry <= 0 ->
  attr_once "d" l' t -> spells E t cs ->
  longhand E (pen0 E) cs = longhand E (pen0 E) [MoveTo (E := E) false (x, y) [(w + x, y); (w + x, h + y); (x, h + y)]; ClosePath] ->
  same_outline E "rect" l "path" l' /\ same_outline E "path" l' "rect" l)%R.
Proof. exact rect_path_real. Qed.
Print Assumptions C58_rect.
(** A circle is an ellipse *)
Theorem C58_circle : forall (E : Env) l l' cx cy r,
  (forall vb, length_attr (E := E) vb OfWidth "cx" l cx /\ length_attr vb OfHeight "cy" l cy /\ length_attr vb OfDiagonal "r" l r
              /\ length_attr vb OfWidth "cx" l' cx /\ length_attr vb OfHeight "cy" l' cy /\ length_attr vb OfWidth "rx" l' r /\ length_attr vb OfHeight "ry" l' r) ->
  has_attr "rx" l = false -> has_attr "ry" l = false -> has_attr "r" l' = false ->
  same_outline E "circle" l "ellipse" l' /\ same_outline E "ellipse" l' "circle" l.
Proof. exact @circle_ellipse. Qed.
Print Assumptions C58_circle.

(** <line x1="5" y2="50"/> and <path d="M5 0L0 50"/>, circle and ellipse, <rect y="2" width="4" height="5"/> and <path d="M0 2L4 2L4 7L0 7Z"/> *)
Definition C58_l : list attr := [mkAttr "x1" "5"; mkAttr "y2" "50"]%string.
Definition C58_lp : list attr := [mkAttr "d" "M5 0L0 50"]%string.
Definition C58_c : list attr := [mkAttr "cx" "5"; mkAttr "r" "50"]%string.
Definition C58_e : list attr := [mkAttr "rx" "50"; mkAttr "ry" "50"; mkAttr "cx" "5"]%string.
Definition C58_real : ROracles := {|
  r_fmt := fun _ => EmptyString;
  r_parse := fun s => if String.eqb s "0" then Some 0 else if String.eqb s "2" then Some 2 else if String.eqb s "4" then Some 4 else if String.eqb s "5" then Some 5
    else if String.eqb s "7" then Some 7 else None;
  r_f32 := IZR; r_isLetterU := fun _ => false; r_isNumberU := fun _ => false; r_toLowerU := fun s => s;
  r_colorname := fun _ => None; r_growcap := fun n => n |}%R.
Definition C58_r : list attr := [mkAttr "y" "2"; mkAttr "width" "4"; mkAttr "height" "5"]%string.
Definition C58_rp : list attr := [mkAttr "d" "M0 2 4 2 4 7 0 7Z"]%string.
Ltac nums l := exists l, ""%string; vm_compute; auto.
Lemma C58_line_text : spells D "M5 0L0 50" [MoveTo false (V 5 1, V 0 1) []; LineTo false (V 0 1, V 50 1) []].
Proof.
  exists ""%string, "M5 0L0 50"%string. split; [reflexivity|]. split; [reflexivity|].
  apply (spells_cons D (MoveTo false (V 5 1, V 0 1) []) "5 0" "L0 50"); [nums [(""%string, num NoSign "5" None); (" "%string, num NoSign "0" None)]|].
  apply (spells_cons D (LineTo false (V 0 1, V 50 1) []) "0 50" ""); [nums [(""%string, num NoSign "0" None); (" "%string, num NoSign "50" None)]|apply spells_nil].
Qed.
Example C58_shapes_example :
  same_outline D "line" C58_l "path" C58_lp /\ same_outline D "circle" C58_c "ellipse" C58_e /\ same_outline (RealEnv C58_real) "rect" C58_r "path" C58_rp.
Proof.
  split; [|split].
  - refine (proj1 (C58_line D (F64_add_comm demoO) C58_l C58_lp "M5 0L0 50" (V 5 1) (V 0 1) (V 0 1) (V 50 1) _ _ _ C58_line_text eq_refl)).
    + intros vb. split; [|split; [|split]]; unfold C58_l; lens.
    + exists [], []. repeat split.
  - refine (proj1 (C58_circle D C58_c C58_e (V 5 1) (V 0 1) (V 50 1) _ eq_refl eq_refl eq_refl)).
    intros vb. split; [|split; [|split; [|split; [|split; [|split]]]]]; unfold C58_c, C58_e; lens.
  - set (E := RealEnv C58_real).
    refine (proj1 (C58_rect C58_real C58_r C58_rp "M0 2 4 2 4 7 0 7Z" 0 2 4 5 0 0 [MoveTo (E := E) false (0, 2)%R [(4, 2); (4, 7); (0, 7)]%R; ClosePath] _ _ _ _ _ _ _ _)); try lra.
    + intros vb. split; [|split; [|split; [|split; [|split]]]]; unfold C58_r.
      1, 5, 6: cbn; lra.
      * cbn. exists 2%R. split; [|reflexivity]. exists ""%string, "2"%string, ""%string, UNone, ""%string, 2%R. repeat split; try reflexivity; cbn; lra.
      * cbn. exists 4%R. split; [|reflexivity]. exists ""%string, "4"%string, ""%string, UNone, ""%string, 4%R. repeat split; try reflexivity; cbn; lra.
      * cbn. exists 5%R. split; [|reflexivity]. exists ""%string, "5"%string, ""%string, UNone, ""%string, 5%R. repeat split; try reflexivity; cbn; lra.
    + exists [], []. repeat split.
    + exists ""%string, "M0 2 4 2 4 7 0 7Z"%string. split; [reflexivity|]. split; [reflexivity|].
      apply (spells_cons E (MoveTo (E := E) false (0, 2)%R [(4, 2); (4, 7); (0, 7)]%R) "0 2 4 2 4 7 0 7" "Z").
      * exists [(""%string, num NoSign "0" None); (" "%string, num NoSign "2" None); (" "%string, num NoSign "4" None); (" "%string, num NoSign "2" None);
                (" "%string, num NoSign "4" None); (" "%string, num NoSign "7" None); (" "%string, num NoSign "0" None); (" "%string, num NoSign "7" None)], ""%string.
        repeat split; try reflexivity. cbn. repeat (apply (f_equal2 cons); [apply f_equal; lra|]). reflexivity.
      * apply (spells_cons E ClosePath "" ""); [exists [], ""%string; repeat split|apply spells_nil].
    + replace (4 + 0)%R with 4%R by lra. replace (5 + 2)%R with 7%R by lra. reflexivity.
Qed.

(** a polygon in a group, written as a path; and style attributes for presentation attributes *)
Definition C58_gon : list attr := [mkAttr "points" "1,2 3-4 5 6"; mkAttr "stroke" "blue"; mkAttr "fill" "none"]%string.
Definition C58_gon' : list attr := [mkAttr "style" "stroke: blue; fill:none"; mkAttr "d" "M1,2 3-4 5 6z"]%string.
Definition C58_one : list token :=
  [TStart "svg" []; TStart "g" [mkAttr "opacity" "0.5"]; TStart "polygon" C58_gon; TEnd "polygon"; TEnd "g"; TEnd "svg"]%string.
Definition C58_two : list token :=
  [TStart "svg" []; TStart "g" [mkAttr "style" "opacity:0.5"]; TStart "path" C58_gon'; TEnd "path"; TEnd "g"; TEnd "svg"]%string.
Definition C58_seen (r : presult D) : list path := match r with PSvg s None [] => map sp_path (sv_paths s) | _ => [] end.
Lemma C58_closed : spells D "M1,2 3-4 5 6z" [MoveTo false (V 1 1, V 2 1) [(V 3 1, V (-4) 1); (V 5 1, V 6 1)]; ClosePath].
Proof.
  exists ""%string, "M1,2 3-4 5 6z"%string. split; [reflexivity|]. split; [reflexivity|].
  apply (spells_cons D (MoveTo false (V 1 1, V 2 1) [(V 3 1, V (-4) 1); (V 5 1, V 6 1)]) "1,2 3-4 5 6" "z"); [exact ex_points|].
  apply (spells_close_lower D "" ""); [reflexivity|apply spells_nil].
Qed.
Lemma C58_decls : same_decls C58_gon C58_gon'.
Proof.
  exists [("stroke", "blue"); ("fill", "none")]%string. split.
  - apply (ads_cons _ [] _ [("stroke", "blue"); ("fill", "none")]%string); [apply ad_skip; reflexivity|].
    apply (ads_cons _ [("stroke", "blue")]%string _ [("fill", "none")]%string); [apply ad_keep; reflexivity|].
    apply (ads_cons _ [("fill", "none")]%string _ []); [apply ad_keep; reflexivity|]. constructor.
  - apply (ads_cons _ [("stroke", "blue"); ("fill", "none")]%string _ []); [|apply (ads_cons _ [] _ []); [apply ad_skip; reflexivity|constructor]].
    apply ad_style; [reflexivity|]. apply (stt_cons "stroke: blue" [("stroke", "blue")]%string " fill:none" [("fill", "none")]%string); [reflexivity| |].
    + apply (dt_decl "stroke" " blue" "stroke" "blue"); try reflexivity; [apply tidy_padded; reflexivity|].
      exists " "%string, ""%string. repeat split; reflexivity.
    + apply stt_last; [reflexivity|]. apply (dt_decl " fill" "none" "fill" "none"); try reflexivity; [|apply tidy_padded; reflexivity].
      exists " "%string, ""%string. repeat split; reflexivity.
Qed.
Lemma C58_gons d : d = false -> respelled D d "polygon" C58_gon "path" C58_gon'.
Proof.
  intros ->. apply re_shape; [cbn; tauto|cbn; tauto|intros _; reflexivity|exact C58_decls|reflexivity| |discriminate].
  refine (proj1 (C58_polygon D (F64_add_comm demoO) C58_gon C58_gon' "1,2 3-4 5 6" "M1,2 3-4 5 6z" (V 1 1, V 2 1) [(V 3 1, V (-4) 1); (V 5 1, V 6 1)] _ _ ex_points _ _ C58_closed eq_refl)).
  - exists [], [mkAttr "stroke" "blue"; mkAttr "fill" "none"]%string. repeat split.
  - cbn. lia.
  - exists [mkAttr "style" "stroke: blue; fill:none"]%string, []. repeat split.
Qed.
Example C58_example : Forall2 (respelled_token D false) C58_one C58_two
  /\ C58_seen (parse 3 StrictErrorMode C58_one TermEOF) = [[OpMoveTo (64, 128); OpLineTo (192, -256); OpLineTo (320, 384); OpClose]]%Z
  /\ C58_seen (parse 3 StrictErrorMode C58_two TermEOF) = C58_seen (parse 3 StrictErrorMode C58_one TermEOF).
Proof.
  split; [|split; vm_compute; reflexivity].
  unfold C58_one, C58_two. apply Forall2_cons; [|apply Forall2_cons; [|apply Forall2_cons; [|apply Forall2_cons; [|apply Forall2_cons; [|apply Forall2_cons; [|constructor]]]]]].
  - apply rt_start; [|discriminate]. apply re_same. intros [H|H]; discriminate.
  - apply rt_start; [|discriminate]. apply re_group; [|reflexivity]. exists [("opacity", "0.5")]%string. split.
    + apply (ads_cons _ [("opacity", "0.5")]%string _ []); [apply ad_keep; reflexivity|constructor].
    + apply (ads_cons _ [("opacity", "0.5")]%string _ []); [|constructor]. apply ad_style; [reflexivity|]. apply stt_last; [reflexivity|].
      apply (dt_decl "opacity" "0.5" "opacity" "0.5"); try reflexivity; apply tidy_padded; reflexivity.
  - apply rt_start; [exact (C58_gons false eq_refl)|discriminate].
  - apply rt_end. right. cbn. tauto.
  - apply rt_end. left. reflexivity.
  - apply rt_end. left. reflexivity.
Qed.

(** Not so inside a definition: a path there makes the group forget what it has drawn before (see C27), so
    writing a polygon as a path changes the drawing. *)
Definition C58_group (x : list token) : list token :=
  [TStart "svg" []; TStart "defs" []; TStart "g" [mkAttr "id" "a"]; TStart "line" [mkAttr "x2" "1"]; TEnd "line"]%string
  ++ x ++ [TEnd "g"; TEnd "defs"; TStart "use" [mkAttr "href" "#a"]; TEnd "use"; TEnd "svg"]%string.
Theorem C58_defs_refuted : respelled D false "polygon" C58_gon "path" C58_gon'
  /\ C58_seen (parse 3 StrictErrorMode (C58_group [TStart "polygon" C58_gon; TEnd "polygon"]%string) TermEOF)
     = [[OpMoveTo (0, 0); OpLineTo (64, 0); OpMoveTo (64, 128); OpLineTo (192, -256); OpLineTo (320, 384); OpClose]]%Z
  /\ C58_seen (parse 3 StrictErrorMode (C58_group [TStart "path" C58_gon'; TEnd "path"]%string) TermEOF)
     = [[OpMoveTo (64, 128); OpLineTo (192, -256); OpLineTo (320, 384); OpClose]]%Z.
Proof. split; [exact (C58_gons false eq_refl)|]. split; vm_compute; reflexivity. Qed.
Print Assumptions C58_defs_refuted.

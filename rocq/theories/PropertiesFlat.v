(** * PropertiesFlat: groups (C52) *)
From Verif Require Import ProofsFlat ExTree.
Local Open Scope go_scope.

(** C52.  The attributes of a group act as if they were written on each element in it: when a document
    parses without error, then so does the document without some of its groups, in which the attributes
    of these groups precede the attributes of the elements that were in them, and it has the same
    content, in every field.  The groups may be nested, and be at any position outside definitions and
    gradients.  (The decoder accepts an attribute that is given twice; the later one wins.) *)
Theorem C52_flattened : forall (E : Env) (fuel : nat) (mode : errorMode) (u : bool) (pre : list token) (ns ms : list node) (post : list token) (s : svg E) (log : list string),
  tidy_at u pre -> (exists name attrs, List.In (TStart name attrs) pre) -> flattened [] ns ms ->
  parse fuel mode (pre ++ flat_map tokens ns ++ post) TermEOF = PSvg s None log ->
  exists log', parse fuel mode (pre ++ flat_map tokens ms ++ post) TermEOF = PSvg s None log'.
Proof. exact @groups_flattened. Qed.
Print Assumptions C52_flattened.

Definition C52_pre : list token := [TStart "svg" [mkAttr "viewBox" "0 0 10 10"]]%string.
Definition C52_post : list token := [TEnd "svg"]%string.
Definition C52_deep : list node :=
  [Elem "g" [mkAttr "fill" "#010203"; mkAttr "style" "stroke:#040506;opacity:0.5"]
     [Elem "title" [] [Chars "t"];
      Elem "g" [mkAttr "stroke-width" "10%"] [Elem "line" [mkAttr "x2" "1"] []; Misc; Elem "line" [mkAttr "y2" "1"; mkAttr "fill" "#070809"] []];
      Elem "g" [mkAttr "transform" "translate(1,2)"] [Elem "line" [mkAttr "x2" "2"] []]];
   Elem "line" [mkAttr "x2" "3"] []]%string.
Definition C52_flat : list node :=
  let out := [mkAttr "fill" "#010203"; mkAttr "style" "stroke:#040506;opacity:0.5"]%string in
  [Elem "title" out [Chars "t"];
   Elem "line" (out ++ [mkAttr "stroke-width" "10%"; mkAttr "x2" "1"]) []; Misc; Elem "line" (out ++ [mkAttr "stroke-width" "10%"; mkAttr "y2" "1"; mkAttr "fill" "#070809"]) [];
   Elem "g" (out ++ [mkAttr "transform" "translate(1,2)"]) [Elem "line" [mkAttr "x2" "2"] []];
   Elem "line" [mkAttr "x2" "3"] []]%string.
Definition C52_seen (r : presult D) :=
  match r with
  | PSvg s None [] => (sv_titles s, map (fun p => (sp_path p, match st_filler (sp_style p) with Some (PPlain r g b _) => [r; g; b] | _ => [] end,
      feqb D (st_lineWidth (sp_style p)) (fnum D 1), feqb D (mE (st_transform (sp_style p))) (fnum D 1))) (sv_paths s))
  | _ => ([], []) end.
Lemma C52_attr n v : ExTree.tidy n && lacks ":" n && ExTree.tidy v && lacks ":" v && negb (String.eqb (low_case n) "style") = true -> attr_decls (mkAttr n v) [(low_case n, v)].
Proof.
  rewrite !andb_true_iff, negb_true_iff, String.eqb_neq. intros ((((H1 & H2) & H3) & H4) & H5). apply ad_pres; auto using tidy_padded.
Qed.
Lemma C52_keep above n m ns ms : m = inherit above n -> heir n = true -> flattened above ns ms -> flattened above (n :: ns) (m :: ms).
Proof. intros ->. apply fl_keep. Qed.
Example C52_example :
  tidy_at false C52_pre /\ flattened [] C52_deep C52_flat
  /\ C52_seen (parse 2 StrictErrorMode (C52_pre ++ flat_map tokens C52_deep ++ C52_post) TermEOF)
     = (["t"]%string, [([OpMoveTo (0, 0); OpLineTo (64, 0)], [1; 2; 3], true, false); ([OpMoveTo (0, 0); OpLineTo (0, 64)], [7; 8; 9], true, false);
        ([OpMoveTo (0, 0); OpLineTo (128, 0)], [1; 2; 3], false, true); ([OpMoveTo (0, 0); OpLineTo (192, 0)], [0; 0; 0], false, false)])%Z.
Proof.
  split; [|split]; [| |vm_compute; reflexivity].
  - apply (ta_into false [] "svg"); try reflexivity; [constructor|discriminate].
  - apply (fl_group [] _ _ (firstn 5 C52_flat) _ (skipn 5 C52_flat)); [| |apply C52_keep; [reflexivity|reflexivity|constructor]].
    + split.
      * exists [("fill", "#010203"); ("stroke", "#040506"); ("opacity", "0.5")]%string. split.
        -- apply (ads_cons _ [("fill", "#010203")]%string); [apply C52_attr; reflexivity|].
           apply (ads_cons _ [("stroke", "#040506"); ("opacity", "0.5")]%string _ []); [|constructor]. apply ad_style; [reflexivity|].
           apply (stt_cons "stroke:#040506" [("stroke", "#040506")]%string "opacity:0.5" [("opacity", "0.5")]%string); [reflexivity| |].
           { apply (dt_decl "stroke" "#040506" "stroke" "#040506"); try reflexivity; apply tidy_padded; reflexivity. }
           apply stt_last; [reflexivity|]. apply (dt_decl "opacity" "0.5" "opacity" "0.5"); try reflexivity; apply tidy_padded; reflexivity.
        -- repeat (constructor; [split; discriminate|]). constructor.
      * repeat (constructor; [vm_compute; intuition discriminate|]). constructor.
    + apply C52_keep; [reflexivity|reflexivity|].
      apply (fl_group _ [mkAttr "stroke-width" "10%"]%string _ (firstn 3 (skipn 1 C52_flat)) _ [nth 4 C52_flat Misc]).
      * split.
        -- exists [("stroke-width", "10%")]%string. split; [apply (ads_cons _ [("stroke-width", "10%")]%string _ []); [apply C52_attr; reflexivity|constructor]|].
           repeat (constructor; [split; discriminate|]). constructor.
        -- repeat (constructor; [vm_compute; intuition discriminate|]). constructor.
      * do 3 (apply C52_keep; [reflexivity|reflexivity|]). constructor.
      * apply C52_keep; [reflexivity|reflexivity|constructor].
Qed.

(** In particular a group without attributes may be left out. *)
Theorem C52_bare_group : forall (E : Env) (fuel : nat) (mode : errorMode) (u : bool) (pre : list token) (kids : list node) (post : list token) (s : svg E) (log : list string),
  tidy_at u pre -> (exists name attrs, List.In (TStart name attrs) pre) -> forallb heir kids = true ->
  parse fuel mode (pre ++ tokens (Elem "g" [] kids) ++ post) TermEOF = PSvg s None log ->
  exists log', parse fuel mode (pre ++ flat_map tokens kids ++ post) TermEOF = PSvg s None log'.
Proof. exact @bare_group. Qed.
Print Assumptions C52_bare_group.

(** With a transform this is false: on one element the later transform replaces the earlier one. *)
Theorem C52_transform_refuted :
  let doc ns := (C52_pre ++ flat_map tokens ns ++ C52_post) in
  let t v := mkAttr "transform" v in
  let moved r := match r with PSvg s None [] => map (fun p => (feqb D (mE (st_transform (sp_style p))) (fnum D 1), feqb D (mF (st_transform (sp_style p))) (fnum D 2))) (sv_paths s) | _ => [] end in
  moved (parse (E := D) 2 StrictErrorMode (doc [Elem "g" [t "translate(1,0)"] [Elem "line" [t "translate(0,2)"; mkAttr "x2" "1"] []]]) TermEOF) = [(true, true)]
  /\ moved (parse (E := D) 2 StrictErrorMode (doc [Elem "line" [t "translate(1,0)"; t "translate(0,2)"; mkAttr "x2" "1"] []]) TermEOF) = [(false, true)].
Proof. split; vm_compute; reflexivity. Qed.
Print Assumptions C52_transform_refuted.

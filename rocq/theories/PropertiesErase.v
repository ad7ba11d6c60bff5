(** * PropertiesErase: what may be left out of a document (C44, C45, C46) *)
From Verif Require Import ProofsErase ProofsNoise ExTree.
Local Open Scope go_scope.

(** C44.  Attributes and style declarations with a name that the parser does not know change nothing:
    the two documents give the same result, the same error or the same panic, in every error mode, with
    the same log.  The value of such an attribute is arbitrary. *)
Theorem C44_unknown : forall (E : Env) (fuel : nat) (mode : errorMode) (toks toks' : list token) (tm : term),
  Forall2 (fewer_token unknown_decl) toks toks' ->
  alike (E := E) same_svg (parse fuel mode toks tm) (parse fuel mode toks' tm).
Proof. exact @unknown_ignored. Qed.
Print Assumptions C44_unknown.
Definition C44_long : list token :=
  [TStart "svg" [mkAttr "version" "1.1"; mkAttr "viewBox" "0 0 10 10"];
   TStart "path" [mkAttr "class" "a:b;;c"; mkAttr "style" "fill:#102030; font-size : 3 ;stroke-width:4"; mkAttr "d" "M1 2L3 4"; mkAttr "data-x" ""];
   TEnd "path"; TEnd "svg"]%string.
Definition C44_short : list token :=
  [TStart "svg" [mkAttr "viewBox" "0 0 10 10"];
   TStart "path" [mkAttr "style" "fill:#102030;stroke-width:4"; mkAttr "d" "M1 2L3 4"];
   TEnd "path"; TEnd "svg"]%string.
Lemma not_in (s : string) l : existsb (String.eqb s) l = false -> ~ List.In s l.
Proof. intros H Hi. enough (existsb (String.eqb s) l = true) by congruence. apply existsb_exists. exists s. split; [exact Hi|apply String.eqb_refl]. Qed.
Lemma drop_named dropped n v l l' : tidy n && lacks ":" n && negb (String.eqb (low_case n) "style") = true -> existsb (String.eqb n) element_names = false ->
  parts_named (low_case n) = [] -> fewer dropped l l' -> fewer dropped (mkAttr n v :: l) l'.
Proof.
  intros H H1 H2 Hl. apply andb_prop in H as [H H3]. apply andb_prop in H as [H4 H5]. apply negb_true_iff, String.eqb_neq in H3.
  apply (fw_drop dropped n v n v); auto using tidy_padded, not_in.
Qed.
Example C44_example :
  Forall2 (fewer_token unknown_decl) C44_long C44_short
  /\ match parse (E := D) 2 StrictErrorMode C44_long TermEOF with
     | PSvg s None [] => map sp_path (sv_paths s)
     | _ => [] end = [[OpMoveTo (64, 128)%Z; OpLineTo (192, 256)%Z]].
Proof.
  split; [|vm_compute; reflexivity].
  constructor; [constructor|constructor; [constructor|constructor; [apply ft_same|constructor; [apply ft_same|constructor]]]].
  - apply drop_named; try reflexivity. apply fw_keep, fw_nil.
  - apply drop_named; try reflexivity.
    apply (fw_style _ _ _ [("fill", "#102030"); ("font-size", "3"); ("stroke-width", "4")]%string [("fill", "#102030"); ("stroke-width", "4")]%string).
    + apply (stt_cons "fill:#102030" [("fill", "#102030")]%string " font-size : 3 ;stroke-width:4"); [reflexivity| |].
      { apply (dt_decl "fill" "#102030" "fill" "#102030"); try reflexivity; apply tidy_padded; reflexivity. }
      apply (stt_cons " font-size : 3 " [("font-size", "3")]%string "stroke-width:4"); [reflexivity| |].
      { apply (dt_decl " font-size " " 3 " "font-size" "3"); try reflexivity; exists " "%string, " "%string; repeat split; reflexivity. }
      apply stt_last; [reflexivity|]. apply (dt_decl "stroke-width" "4" "stroke-width" "4"); try reflexivity; apply tidy_padded; reflexivity.
    + apply (stt_cons "fill:#102030" [("fill", "#102030")]%string "stroke-width:4"); [reflexivity| |].
      { apply (dt_decl "fill" "#102030" "fill" "#102030"); try reflexivity; apply tidy_padded; reflexivity. }
      apply stt_last; [reflexivity|]. apply (dt_decl "stroke-width" "4" "stroke-width" "4"); try reflexivity; apply tidy_padded; reflexivity.
    + apply fd_keep, fd_drop; [reflexivity|apply not_in; reflexivity|apply fd_keep, fd_nil].
    + apply fw_keep. apply drop_named; try reflexivity. apply fw_nil.
Qed.

(** C45.  Leaving out mask attributes and mask declarations changes nothing but the mask lists: the
    outlines, all other style properties of all paths, in the body and inside masks, the masks' own
    geometry, titles and sizes are the same, and so are errors, panics and the log. *)
Theorem C45_masks_only : forall (E : Env) (fuel : nat) (mode : errorMode) (toks toks' : list token) (tm : term),
  Forall2 (fewer_token mask_decl) toks toks' ->
  alike (E := E) same_but_masks (parse fuel mode toks tm) (parse fuel mode toks' tm).
Proof. exact @masks_only. Qed.
Print Assumptions C45_masks_only.
Definition C45_doc (m : list attr) : list token :=
  [TStart "svg" [mkAttr "viewBox" "0 0 10 10"];
   TStart "mask" [mkAttr "id" "k"]; TStart "line" (m ++ [mkAttr "x2" "1"]); TEnd "line"; TEnd "mask";
   TStart "g" (m ++ [mkAttr "fill" "none"]); TStart "path" (m ++ [mkAttr "d" "M1 2L3 4"]); TEnd "path"; TEnd "g"; TEnd "svg"]%string.
Example C45_example :
  let m := [mkAttr "mask" " url(#k) "]%string in
  let seen r := match r with PSvg s None [] => (map (fun p => (sp_path p, path_masks s p)) (sv_paths s)) | _ => [] end in
  Forall2 (fewer_token mask_decl) (C45_doc m) (C45_doc [])
  /\ seen (parse (E := D) 2 StrictErrorMode (C45_doc m) TermEOF) = [([OpMoveTo (64, 128)%Z; OpLineTo (192, 256)%Z], ["k"; "k"]%string)]
  /\ seen (parse (E := D) 2 StrictErrorMode (C45_doc []) TermEOF) = [([OpMoveTo (64, 128)%Z; OpLineTo (192, 256)%Z], [])].
Proof.
  cbv zeta. split; [|split; vm_compute; reflexivity].
  assert (H : forall l, fewer mask_decl ([mkAttr "mask" " url(#k) "] ++ l) l).
  { intros l. apply (fw_drop _ _ _ "mask" "url(#k)"); try discriminate; try reflexivity.
    - apply not_in. reflexivity.
    - apply tidy_padded. reflexivity.
    - left. split; [right; split; [reflexivity|right; exists "k"%string; split; reflexivity]|]. split; [|reflexivity]. exists " "%string, " "%string. repeat split; reflexivity.
    - induction l as [|a l IH]; [apply fw_nil|apply fw_keep, IH]. }
  unfold C45_doc. repeat (constructor; [first [apply ft_same | constructor; apply H]|]). constructor.
Qed.

(** C46.  Comments, directives and processing instructions, and the way in which the decoder cuts a
    text into pieces, change nothing. *)
Theorem C46_comments : forall (E : Env) (fuel : nat) (mode : errorMode) (toks toks' : list token) (tm : term),
  recut toks toks' -> parse (E := E) fuel mode toks tm = parse fuel mode toks' tm.
Proof. exact @recut_same. Qed.
Print Assumptions C46_comments.
Example C46_comments_example :
  recut [TOther; TStart "title" []; TChar "a "; TOther; TChar "b"; TEnd "title"] [TStart "title" []; TChar "a b"; TEnd "title"; TOther]%string
  /\ match parse (E := D) 2 StrictErrorMode [TStart "title" []; TChar "a b"; TEnd "title"; TOther] TermEOF with PSvg s None _ => sv_titles s | _ => [] end = ["a b"]%string.
Proof.
  split; [|vm_compute; reflexivity]. apply rc_misc, rc_keep.
  apply (rc_trans _ [TChar "a "; TChar "b"; TEnd "title"; TOther]); [|apply (rc_cut "a " "b"); apply rc_keep, rc_keep, rc_nil].
  apply rc_keep, rc_misc, rc_keep, rc_keep, rc_sym, rc_misc, rc_nil.
Qed.
(** Text outside titles and descriptions changes nothing: the results are equal, errors and log included.
    Partial: the document must be tidy (see [tidy]). *)
Theorem C46_text_partial : forall (E : Env) (fuel : nat) (mode : errorMode) (u : bool) (ns ns' : list node) (tm : term),
  tidy_doc u ns = true -> spoken ns ns' ->
  parse (E := E) fuel mode (flat_map tokens ns) tm = parse fuel mode (flat_map tokens ns') tm.
Proof. exact @text_ignored. Qed.
Print Assumptions C46_text_partial.
Definition C46_long : list node :=
  [Misc; Elem "svg" []
    [Chars "x"; Elem "title" [] [Chars "a"]; Elem "defs" [] [Chars " "; Elem "linearGradient" [mkAttr "id" "q"] [Chars " "; Elem "stop" [] [Chars "no"]]; Elem "line" [mkAttr "id" "l"; mkAttr "x2" "4"] []];
     Elem "use" [mkAttr "href" "#l"] [Misc; Chars "&"]]; Chars " "]%string.
Definition C46_short : list node :=
  [Elem "svg" []
    [Elem "title" [] [Chars "a"]; Elem "defs" [] [Elem "linearGradient" [mkAttr "id" "q"] [Elem "stop" [] []]; Elem "line" [mkAttr "id" "l"; mkAttr "x2" "4"] []];
     Elem "use" [mkAttr "href" "#l"] []]]%string.
Example C46_text_example :
  tidy_doc true C46_long = true /\ spoken C46_long C46_short
  /\ match parse (E := D) 2 StrictErrorMode (flat_map tokens C46_long) TermEOF with PSvg s None [] => (sv_titles s, map sp_path (sv_paths s)) | _ => ([], []) end
     = (["a"]%string, [[OpMoveTo (0, 0)%Z; OpLineTo (256, 0)%Z]]).
Proof.
  split; [reflexivity|]. split; [|vm_compute; reflexivity].
  repeat first [apply sp_nil | apply sp_chars | apply sp_misc | apply sp_elem; [discriminate|discriminate|..] | apply sp_keep].
Qed.
(** refuted in general: after a reference to a title, all text belongs to that title *)
Theorem C46_text_refuted :
  let doc t := [Elem "svg" [] ([Elem "defs" [] [Elem "title" [mkAttr "id" "t"] []]; Elem "use" [mkAttr "href" "#t"] []] ++ t)]%string in
  spoken (doc [Chars "x"]) (doc [])
  /\ match parse (E := D) 2 StrictErrorMode (flat_map tokens (doc [Chars "x"%string])) TermEOF with PSvg s None _ => sv_titles s | _ => [] end = ["x"%string]
  /\ match parse (E := D) 2 StrictErrorMode (flat_map tokens (doc [])) TermEOF with PSvg s None _ => sv_titles s | _ => [] end = [""%string].
Proof.
  cbv zeta. split; [|split; vm_compute; reflexivity].
  apply sp_elem; [discriminate|discriminate|apply sp_keep, sp_keep, sp_chars, sp_nil|apply sp_nil].
Qed.
Print Assumptions C46_text_refuted.

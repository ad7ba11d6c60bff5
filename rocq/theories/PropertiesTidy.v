(** * PropertiesTidy: titles, descriptions and definitions (C25, C26) *)
From Verif Require Import ProofsFlags ExPath.
Local Open Scope go_scope.

(** C25.  In a tidy document that is parsed without error, Titles is the list of the texts of the
    title elements outside <defs>, in document order, and Descriptions that of the desc elements.
    A text may come in any number of pieces, with comments and elements between them.
    Partial: the document must be tidy (see [tidy]; [tidy_doc] adds that titles and descriptions are
    not nested).  The theorems named [refuted] below show what happens otherwise. *)
Theorem C25_notes_partial : forall (E : Env) (fuel : nat) (mode : errorMode) (u : bool) (ns : list node) (s : svg E) (log : list string),
  tidy_doc u ns = true -> parse fuel mode (flat_map tokens ns) TermEOF = PSvg s None log ->
  sv_titles s = flat_map (notes "title") ns /\ sv_descs s = flat_map (notes "desc") ns.
Proof. exact @notes_parsed. Qed.
Print Assumptions C25_notes_partial.
Definition C25_doc : list node :=
  [Misc; Elem "svg" []
    [Elem "title" [] [Chars "a "; Misc; Elem "g" [] [Chars "b"]; Elem "desc" [] [Chars "x"]];
     Elem "defs" [] [Elem "linearGradient" [mkAttr "id" "q"] [Elem "stop" [] [Chars "no"]]; Elem "line" [mkAttr "id" "l"; mkAttr "x2" "4"] [Chars "none"]];
     Elem "use" [mkAttr "href" "#l"] []; Chars "nothing";
     Elem "g" [] [Elem "desc" [] []; Elem "mask" [] [Elem "title" [] [Chars "c"]]]]]%string.
Example C25_example :
  tidy_doc true C25_doc = true
  /\ match parse (E := D) 2 StrictErrorMode (flat_map tokens C25_doc) TermEOF with
     | PSvg s None _ => (sv_titles s, sv_descs s, length (sv_paths s))
     | _ => ([], [], 0) end = (["a bx"; "c"], ["x"; ""], 1)%string.
Proof. vm_compute. auto. Qed.
(** without <use>, definitions may contain titles, which do not count *)
Definition C25_doc2 : list node :=
  [Elem "svg" [] [Elem "defs" [] [Elem "title" [] [Chars "x"]; Elem "g" [mkAttr "id" "g"] [Elem "desc" [] []; Elem "use" [] []]]; Elem "title" [] [Chars "y"]]]%string.
Example C25_example2 :
  tidy_doc false C25_doc2 = true
  /\ match parse (E := D) 2 StrictErrorMode (flat_map tokens C25_doc2) TermEOF with
     | PSvg s None _ => (sv_titles s, sv_descs s)
     | _ => ([], []) end = (["y"], [])%string.
Proof. vm_compute. auto. Qed.
(** the end of a title inside a title ends the outer one: " c" is lost *)
Theorem C25_nested_refuted :
  match parse (E := D) 2 StrictErrorMode (tokens (Elem "svg" [] [Elem "title" [] [Chars "a "; Elem "title" [] [Chars "b"]; Chars " c"]])) TermEOF with
  | PSvg s None _ => sv_titles s
  | _ => [] end = ["a "; "b"]%string.
Proof. vm_compute. exact eq_refl. Qed.
Print Assumptions C25_nested_refuted.
(** a reference to a title opens a title that is never closed: all text that follows belongs to it *)
Theorem C25_use_refuted :
  match parse (E := D) 2 StrictErrorMode (tokens (Elem "svg" []
     [Elem "defs" [] [Elem "title" [mkAttr "id" "t"] [Chars "x"]]; Elem "use" [mkAttr "href" "#t"] []; Chars " a"; Elem "g" [] [Chars "b"]]%string)) TermEOF with
  | PSvg s None _ => sv_titles s
  | _ => [] end = [" ab"]%string.
Proof. vm_compute. exact eq_refl. Qed.
Print Assumptions C25_use_refuted.

(** C26.  A <defs> element, wherever it stands outside titles, descriptions, masks, gradients and
    other definitions, leaves the paths, the masks, the titles and the descriptions as they are,
    whether it is parsed without error or not.
    Partial: the content must be tidy. *)
Theorem C26_defs_partial : forall (E : Env) (fuel : nat) (mode : errorMode) (u : bool) (pre : list token) (attrs : list attr) (kids : list node)
    (tm1 tm2 : term) (s1 s2 : svg E) e1 e2 log1 log2,
  tidy_at u pre -> forallb (tidy u true) kids = true ->
  parse fuel mode pre tm1 = PSvg s1 e1 log1 -> parse fuel mode (pre ++ tokens (Elem "defs" attrs kids)) tm2 = PSvg s2 e2 log2 ->
  sv_paths s2 = sv_paths s1 /\ sv_masks s2 = sv_masks s1 /\ sv_titles s2 = sv_titles s1 /\ sv_descs s2 = sv_descs s1.
Proof. exact @defs_not_drawn. Qed.
Print Assumptions C26_defs_partial.
Definition C26_pre : list token :=
  [] ++ [TStart "svg" []] ++ flat_map tokens [Elem "title" [] [Chars "t"]; Elem "mask" [mkAttr "id" "m"] [Elem "line" [mkAttr "x2" "4"] []]; Elem "line" [mkAttr "x2" "4"] []] ++ [TStart "g" []]%string.
Definition C26_kids : list node :=
  [Elem "line" [mkAttr "x2" "4"] [Chars "u"]; Elem "g" [mkAttr "id" "a"] [Elem "rect" [mkAttr "width" "4"] []; Elem "use" [mkAttr "href" "#a"] []];
   Elem "linearGradient" [mkAttr "id" "q"] [Elem "stop" [] []]; Elem "path" [mkAttr "d" "wrong"] []; Elem "title" [] [Chars "z"]; Elem "mask" [] [Elem "line" [] []]]%string.
Definition counts (r : presult D) : list nat :=
  match r with PSvg s None _ => [length (sv_paths s); length (sv_masks s); length (sv_titles s); length (sv_descs s); length (sv_defs s); length (sv_grads s)] | _ => [] end.
Example C26_example :
  tidy_at false C26_pre /\ forallb (tidy false true) C26_kids = true
  /\ counts (parse 2 StrictErrorMode C26_pre TermEOF) = [1; 1; 1; 0; 0; 0]
  /\ counts (parse 2 StrictErrorMode (C26_pre ++ tokens (Elem "defs" [] C26_kids)) TermEOF) = [1; 1; 1; 0; 2; 1].
Proof.
  split; [|vm_compute; auto]. unfold C26_pre. rewrite app_assoc, app_assoc.
  apply ta_into; [|reflexivity|discriminate|reflexivity|reflexivity]. apply ta_nodes; [|reflexivity].
  apply ta_into; [constructor|reflexivity|discriminate|reflexivity|reflexivity].
Qed.
(** inside a gradient, elements are drawn even in definitions *)
Theorem C26_gradient_refuted :
  counts (parse 2 StrictErrorMode (tokens (Elem "svg" [] [Elem "defs" [] [Elem "linearGradient" [] [Elem "line" [mkAttr "x2" "4"] []]]]%string)) TermEOF) = [1; 0; 0; 0; 0; 0].
Proof. vm_compute. exact eq_refl. Qed.
Print Assumptions C26_gradient_refuted.
(** the end of an inner <defs> ends the outer one *)
Theorem C26_nested_refuted :
  counts (parse 2 StrictErrorMode (tokens (Elem "svg" [] [Elem "defs" [] [Elem "defs" [] []; Elem "line" [mkAttr "x2" "4"] []]]%string)) TermEOF) = [1; 0; 0; 0; 1; 0].
Proof. vm_compute. exact eq_refl. Qed.
Print Assumptions C26_nested_refuted.

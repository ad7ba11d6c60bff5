(** * PropertiesWho: the element that draws a path, and its masks (C14, C32) *)
From Verif Require Import ProofsWho ExPath PropertiesSafe.
Local Open Scope go_scope.

(** C32, C14.  In a document parsed without error, SvgPaths lists what the elements outside <defs>,
    gradients and masks draw, in document order, at most one path each and only for shapes; SvgMasks
    maps an id to the last mask element with that id, with what the elements inside it draw, in
    order.  The Masks list of each of these paths, also inside mask elements, holds the masks named
    on the elements around it and on its own element, outermost first, up to [n] of them ([n] is 3
    for Go: [C39_append]).
    Partial: no <use> outside definitions, no masks inside masks, gradients contain only stops, no
    nested <defs>; [attrs_mask] gives a meaning to mask="url(#id)" only (mask="none":
    [C32_none_refuted]; longer lists: [C39_final_refuted]). *)
Theorem C32_elements_partial : forall (E : Env) (n : nat), (forall k, S k < n -> growcap E k <= S k) ->
  forall (fuel : nat) (mode : errorMode) (ns : list node) (s : svg E) (log : list string),
  who_doc ns = true -> parse fuel mode (flat_map tokens ns) TermEOF = PSvg s None log ->
  of_elements n s (flat_map (drawers []) ns) (sv_paths s)
  /\ exists ms, Forall2 (of_mask n s) (flat_map (mask_elements []) ns) ms
     /\ forall id, mget id (sv_masks s) = find (fun m => String.eqb (mk_id m) id) (rev ms).
Proof. exact @document_who. Qed.
Print Assumptions C32_elements_partial.

Definition who_line (i : string) : node := Elem "line" [mkAttr "x2" "5"; mkAttr "mask" ("url(#" ++ i ++ ")")]%string [].
Definition who_ex : list node :=
  [Elem "svg" []
    [Elem "defs" [] [Elem "mask" [mkAttr "id" "x"] [who_line "z"]];
     Elem "mask" [mkAttr "id" "m"; mkAttr "mask" "url(#p)"] [Chars "t"; Elem "g" [mkAttr "mask" "url(#q)"] [who_line "r"; Elem "title" [] []]; Elem "circle" [] []];
     Elem "mask" [mkAttr "id" "m"] [who_line "s"; who_line "t"];
     Elem "g" [mkAttr "mask" "url(#m)"] [who_line "k"; Elem "line" [] []; Elem "path" [] []]]]%string.
Definition who_names (l : list chain) : list (list string) := map (map fst) l.
Definition who_masks (r : presult D) : list (list string) * option (list (list string)) :=
  match r with PSvg s None _ => (map (path_masks s) (sv_paths s), option_map (fun m => map (path_masks s) (mk_paths m)) (mget "m" (sv_masks s))) | _ => ([], None) end.
Example C32_elements_example :
  who_doc who_ex = true
  /\ who_names (flat_map (drawers []) who_ex) = [["svg"]; ["svg"; "g"]; ["svg"; "g"; "line"]; ["svg"; "g"; "line"]; ["svg"; "g"; "path"]]%string
  /\ map (fun e => who_names (snd e)) (flat_map (mask_elements []) who_ex)
     = [[["svg"; "mask"; "g"]; ["svg"; "mask"; "g"; "line"]; ["svg"; "mask"; "g"; "title"]; ["svg"; "mask"; "circle"]]; [["svg"; "mask"; "line"]; ["svg"; "mask"; "line"]]]%string
  /\ who_masks (parse 1 StrictErrorMode (flat_map tokens who_ex) TermEOF) = ([["m"; "k"]; ["m"]], Some [["s"]; ["t"]])%string
  /\ who_masks (parse 1 StrictErrorMode (flat_map tokens [Elem "svg" [] [Elem "mask" [mkAttr "id" "m"; mkAttr "mask" "url(#p)"] [Elem "g" [mkAttr "mask" "url(#q)"] [who_line "r"]]]]%string) TermEOF)
     = ([], Some [["p"; "q"; "r"]])%string.
Proof. vm_compute. auto 10. Qed.

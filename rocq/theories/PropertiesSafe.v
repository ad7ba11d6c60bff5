(** * PropertiesSafe: what every parsed document guarantees (C19, C30, C32, C39) *)
From Verif Require Import ProofsGrad ProofsMasks ProofsResult ExTree.
Local Open Scope go_scope.

(** C19: the result of Parse.  It is nil exactly for a document without elements that ends normally. *)
Theorem C19_nil : forall (E : Env) (fuel : nat) (mode : errorMode) (ns : list node) (tm : term),
  (exists e, parse (E := E) fuel mode (flat_map tokens ns) tm = PNil e)
  <-> existsb (fun n => match n with Elem _ _ _ => true | _ => false end) ns = false /\ tm = TermEOF.
Proof. exact @parse_nil_iff. Qed.
Print Assumptions C19_nil.
(** the same for every stream of tokens, well nested or not *)
Theorem C19_nil_streams : forall (E : Env) (fuel : nat) (mode : errorMode) (toks : list token) (tm : term) (e : goerr),
  parse (E := E) fuel mode toks tm = PNil e -> tm = TermEOF /\ forall name attrs, ~ List.In (TStart name attrs) toks.
Proof. exact @parse_nil_streams. Qed.
Print Assumptions C19_nil_streams.
(** an error of the XML decoder is returned, with what was parsed before it *)
Theorem C19_decoder_error : forall (E : Env) (fuel : nat) (mode : errorMode) (toks : list token) (x : string) (s : svg E) (log : list string),
  parse fuel mode toks TermEOF = PSvg s None log -> parse fuel mode toks (TermErr x) = PSvg s (Some (ErrXML x)) log.
Proof. exact @decoder_error. Qed.
Print Assumptions C19_decoder_error.
(** an error of the parser ends it *)
Theorem C19_parser_error : forall (E : Env) (fuel : nat) (mode : errorMode) (toks : list token) (s : svg E) (e : goerr) (log : list string),
  parse fuel mode toks TermEOF = PSvg s (Some e) log -> forall more tm, parse fuel mode (toks ++ more) tm = PSvg s (Some e) log.
Proof. exact @parser_error. Qed.
Print Assumptions C19_parser_error.
Theorem C19_success : forall (E : Env) (fuel : nat) (mode : errorMode) (toks more : list token) (s : svg E) (log : list string),
  parse fuel mode (toks ++ more) TermEOF = PSvg s None log -> (exists name attrs, List.In (TStart name attrs) toks) ->
  exists s' log', parse (E := E) fuel mode toks TermEOF = PSvg s' None log'.
Proof. exact @success_prefix. Qed.
Print Assumptions C19_success.
(** ParseFile: a file that cannot be opened gives no picture and the error of the operating system; the result for any other
    file is nil exactly as for Parse; and a document that Parse accepts or rejects in a mode is accepted or rejected in this mode *)
Theorem C19_file : forall (E : Env) (fuel : nat) (mode : errorMode) (file : option (list token * term)) (err : goerr),
  (file = None -> parseFile (E := E) fuel mode file err = PNil err)
  /\ (forall toks tm, file = Some (toks, tm) ->
        (forall s log, parseFile (E := E) fuel mode file err = PSvg s None log <-> tm = TermEOF /\ parse fuel mode toks TermEOF = PSvg s None log)
        /\ (forall e, parseFile (E := E) fuel mode file err = PNil e -> tm = TermEOF /\ forall name attrs, ~ List.In (TStart name attrs) toks)).
Proof.
  intros E fuel mode file err. split; [intros ->; reflexivity|]. intros toks tm ->. cbn [parseFile]. split; [|intros e; exact (parse_nil_streams fuel mode toks tm e)].
  intros s log. split; [|intros [-> H]; exact H]. destruct tm as [|x]; [auto|]. intros H. exfalso. unfold parse in H.
  destruct (mapM (stepToken fuel) toks (cursor0 mode)) as [c [a|e| |]]; discriminate H.
Qed.
Print Assumptions C19_file.
Definition file_kind (r : presult D) : nat := match r with PNil _ => 0 | PSvg _ None _ => 1 | PSvg _ (Some _) _ => 2 | _ => 3 end.
Example C19_file_example :
  file_kind (parseFile 1 IgnoreErrorMode (Some ([TStart "svg" []; TStart "text" []; TEnd "text"; TEnd "svg"], TermEOF)) ErrParamMismatch) = 1%nat
  /\ file_kind (parseFile 1 StrictErrorMode (Some ([TStart "svg" []; TStart "text" []; TEnd "text"; TEnd "svg"], TermEOF)) ErrParamMismatch) = 2%nat
  /\ file_kind (parseFile 1 StrictErrorMode None ErrParamMismatch) = 0%nat.
Proof. vm_compute. auto. Qed.
Definition result_kind (r : presult D) : option (nat * option goerr) :=
  match r with PSvg s e _ => Some (length (sv_paths s), e) | _ => None end.
Definition C19_toks : list token := [TStart "svg" []; TStart "line" [mkAttr "x2" "5"]; TEnd "line"]%string.
Example C19_example :
  result_kind (parse 1 StrictErrorMode C19_toks TermEOF) = Some (1, None)
  /\ result_kind (parse 1 StrictErrorMode C19_toks (TermErr "unexpected EOF")) = Some (1, Some (ErrXML "unexpected EOF"))
  /\ result_kind (parse 1 StrictErrorMode (C19_toks ++ [TStart "path" [mkAttr "d" "M1"]]) TermEOF) = Some (1, Some ErrParamMismatch)
  /\ result_kind (parse 1 StrictErrorMode [TChar " "; TOther] TermEOF) = None.
Proof. vm_compute. auto. Qed.

(** C30: the gradients of every path of every result can be drawn: they have a direction, and every
    stop has a colour.  No assumption on the document: it may be ill-formed, and parsing may have failed. *)
Theorem C30_gradients : forall (E : Env) (fuel : nat) (mode : errorMode) (toks : list token) (tm : term) (s : svg E) (err : option goerr) (log : list string) (p : svgPath E),
  parse fuel mode toks tm = PSvg s err log -> has_path s p -> complete_style (sp_style p).
Proof. exact @gradients_complete. Qed.
Print Assumptions C30_gradients.
(** a stop without a colour, in the drawing and inside a mask *)
Example C30_example :
  match parse (E := D) 1 StrictErrorMode (tokens (Elem "svg" [mkAttr "fill" "red"]
     [Elem "linearGradient" [mkAttr "id" "a"] [Elem "stop" [] []; Elem "stop" [mkAttr "stop-color" "blue"] []];
      Elem "path" [mkAttr "d" "M1 1L2 2"; mkAttr "fill" "url(#a)"] [];
      Elem "mask" [mkAttr "id" "m"] [Elem "path" [mkAttr "d" "M1 1L2 2"; mkAttr "stroke" "url(#a)"] []]])) TermEOF with
  | PSvg s None _ =>
     (map (fun p => match st_filler (sp_style p) with Some (PGrad g) => map stColor (gStops g) | _ => [] end) (sv_paths s),
      map (fun e => map (fun p => match st_liner (sp_style p) with Some (PGrad g) => map stColor (gStops g) | _ => [] end) (mk_paths (snd e))) (sv_masks s))
  | _ => ([], []) end = ([[Some (CNRGBA 255 0 0 255); Some (CNRGBA 0 0 255 255)]], [[[Some (CRGBA 0 0 0 255); Some (CNRGBA 0 0 255 255)]]])%Z.
Proof. vm_compute. reflexivity. Qed.

(** C39: what is stored is final.  Whatever tokens follow, the paths stored so far stay, in the same
    order and with the same style; the list of masks of such a path reads the same if it has at most
    [n] entries, when append gives no spare room to slices with fewer than [n - 1] entries.
    (3 for Go: [C39_append].) *)
Theorem C39_final_partial : forall (E : Env) (fuel : nat) (mode : errorMode) (n : nat) (toks1 toks2 : list token) (tm1 tm2 : term) (s1 s2 : svg E) e1 e2 log1 log2,
  (forall k, S k < n -> growcap E k <= S k) ->
  parse fuel mode toks1 tm1 = PSvg s1 e1 log1 -> parse fuel mode (toks1 ++ toks2) tm2 = PSvg s2 e2 log2 ->
  (exists l, sv_paths s2 = sv_paths s1 ++ l)
  /\ forall p, has_path s1 p -> sl_len (st_masks (sp_style p)) <= n -> path_masks s2 p = path_masks s1 p.
Proof. exact @stored_final. Qed.
Print Assumptions C39_final_partial.
Theorem C39_masks_final : forall (E : Env) (fuel : nat) (mode : errorMode) (toks1 toks2 : list token) (tm1 tm2 : term) (s1 s2 : svg E) e1 e2 log1 log2,
  ~ List.In (TEnd "mask"%string) toks2 ->
  parse fuel mode toks1 tm1 = PSvg s1 e1 log1 -> parse fuel mode (toks1 ++ toks2) tm2 = PSvg s2 e2 log2 -> sv_masks s2 = sv_masks s1.
Proof. exact @masks_final. Qed.
Print Assumptions C39_masks_final.
Lemma go_append : forall O k, S k < 3 -> growcap (F64 O) k <= S k.
Proof. intros O [|[|k]] H; [repeat constructor|repeat constructor|exfalso; do 3 apply le_S_n in H; inversion H]. Qed.
Theorem C39_append : forall (O : Oracles) k, S k < 3 -> growcap (F64 O) k <= S k.
Proof. exact go_append. Qed.
Print Assumptions C39_append.

Definition mask_rect (id : string) : node := Elem "line" [mkAttr "x2" "5"; mkAttr "mask" ("url(#" ++ id ++ ")")]%string [].
Definition mask_g (id : string) : token := TStart "g" [mkAttr "mask" ("url(#" ++ id ++ ")")]%string.
(** the lists of masks of the drawn paths *)
Definition mask_lists (r : presult D) : list (list string) :=
  match r with PSvg s _ _ => map (path_masks s) (sv_paths s) | _ => [] end.
Definition C39_toks : list token := TStart "svg"%string [] :: mask_g "a" :: mask_g "b" :: tokens (mask_rect "c").
Example C39_example :
  mask_lists (parse 1 StrictErrorMode C39_toks TermEOF) = [["a"; "b"; "c"]]%string
  /\ mask_lists (parse 1 StrictErrorMode (C39_toks ++ tokens (mask_rect "d")) TermEOF) = [["a"; "b"; "c"]; ["a"; "b"; "d"]]%string.
Proof. vm_compute. auto. Qed.
(** with four masks the statement is false: the next sibling overwrites the fourth mask *)
Definition C39_deep : list token := TStart "svg"%string [] :: mask_g "a" :: mask_g "b" :: mask_g "c" :: tokens (mask_rect "d").
Definition first_masks (r : presult D) : option (list string) := match mask_lists r with l :: _ => Some l | [] => None end.
Theorem C39_final_refuted :
  first_masks (parse 1 StrictErrorMode C39_deep TermEOF) = Some ["a"; "b"; "c"; "d"]%string
  /\ first_masks (parse 1 StrictErrorMode (C39_deep ++ tokens (mask_rect "e")) TermEOF) = Some ["a"; "b"; "c"; "e"]%string.
Proof. vm_compute. exact (conj eq_refl eq_refl). Qed.
Print Assumptions C39_final_refuted.

(** C32, second half: the mask list of the paths drawn by an element.  [open_at pre anc]: after the
    tokens [pre] the open elements are [anc]; [idss] are the ids of the mask references written on
    them and on the element itself.  At that point, at any depth, the new paths have exactly these
    masks, outermost first. *)
Theorem C32_mask_lists_partial : forall (E : Env) (fuel : nat) (mode : errorMode) pre anc name attrs idss tm1 tm2 (s1 s2 : svg E) e1 e2 log1 log2,
  open_at pre anc -> no_start "use" (pre ++ [TStart name attrs]) -> Forall2 (fun a ids => attrs_mask (snd a) ids) (anc ++ [(name, attrs)]) idss ->
  parse fuel mode pre tm1 = PSvg s1 e1 log1 -> parse fuel mode (pre ++ [TStart name attrs]) tm2 = PSvg s2 e2 log2 ->
  exists l, sv_paths s2 = sv_paths s1 ++ l
    /\ forall p, List.In p l -> sl_len (st_masks (sp_style p)) = length (concat idss) /\ path_masks s2 p = concat idss.
Proof. exact @element_masks. Qed.
Print Assumptions C32_mask_lists_partial.
(** up to [n] masks, also in the final document *)
Theorem C32_mask_lists_final_partial : forall (E : Env) (fuel : nat) (mode : errorMode) (n : nat) pre anc name attrs idss rest tm1 tm3 (s1 s3 : svg E) e1 e3 log1 log3,
  (forall k, S k < n -> growcap E k <= S k) -> length (concat idss) <= n ->
  open_at pre anc -> no_start "use" (pre ++ [TStart name attrs]) -> Forall2 (fun a ids => attrs_mask (snd a) ids) (anc ++ [(name, attrs)]) idss ->
  parse fuel mode pre tm1 = PSvg s1 e1 log1 -> parse fuel mode (pre ++ TStart name attrs :: rest) tm3 = PSvg s3 e3 log3 ->
  exists l l', sv_paths s3 = sv_paths s1 ++ l ++ l' /\ (forall p, List.In p l -> path_masks s3 p = concat idss)
    /\ forall tm2 (s2 : svg E) e2 log2, parse fuel mode (pre ++ [TStart name attrs]) tm2 = PSvg s2 e2 log2 -> sv_paths s2 = sv_paths s1 ++ l.
Proof. exact @element_masks_final. Qed.
Print Assumptions C32_mask_lists_final_partial.
Example C32_mask_lists_example :
  open_at ([] ++ [TStart "svg" []] ++ tokens (mask_rect "z") ++ [mask_g "a"]) [("svg", []); ("g", [mkAttr "mask" "url(#a)"])]%string
  /\ Forall2 (fun a ids => attrs_mask (snd a) ids) [("svg", []); ("g", [mkAttr "mask" "url(#a)"]); ("line", [mkAttr "x2" "5"; mkAttr "mask" "url(#b)"])]%string [[]; ["a"]; ["b"]]%string
  /\ mask_lists (parse 1 StrictErrorMode ([] ++ [TStart "svg" []] ++ tokens (mask_rect "z") ++ [mask_g "a"; TStart "line" [mkAttr "x2" "5"; mkAttr "mask" "url(#b)"]]) TermEOF)
     = [["z"]; ["a"; "b"]]%string.
Proof.
  split; [|split; [|vm_compute; reflexivity]].
  - rewrite app_assoc, app_assoc.
    apply (oa_into (([] ++ [TStart "svg" []]%string) ++ tokens (mask_rect "z")) [("svg", [])]%string). apply oa_node.
    exact (oa_into [] [] "svg" [] oa_start).
  - constructor; [exists []; split; constructor|]. constructor.
    { exists ([("mask", "url(#a)")]%string ++ []). split; [constructor; [apply (ad_keep "mask"); reflexivity|constructor]|].
      exact (mn_mask "a" [] [] eq_refl mn_nil). }
    constructor; [|constructor].
    exists ([("x2", "5")]%string ++ [("mask", "url(#b)")]%string ++ []). split.
    { constructor; [apply (ad_keep "x2"); reflexivity|]. constructor; [apply (ad_keep "mask"); reflexivity|constructor]. }
    apply mn_skip; [discriminate|]. exact (mn_mask "b" [] [] eq_refl mn_nil).
Qed.
(** mask="none" is recorded as a mask with an empty name *)
Theorem C32_none_refuted :
  mask_lists (parse 1 StrictErrorMode (tokens (Elem "svg" [] [Elem "line" [mkAttr "x2" "5"; mkAttr "mask" "none"] []])) TermEOF) = [[""]]%string.
Proof. vm_compute. exact eq_refl. Qed.
Print Assumptions C32_none_refuted.

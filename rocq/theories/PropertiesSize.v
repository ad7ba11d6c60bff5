(** * PropertiesSize: how large a drawing can be (C48) *)
From Coq Require Import Floats.SpecFloat.
From Verif Require Import RealEnv SpecEnd ProofsSize3 ProofsSize4 ProofsSize5 ProofsF64 PropertiesEnd ExPath.
Local Open Scope nat_scope.

(** C48.  The size of a document counts its characters, tags and attributes; the size of a drawing counts
    its path operations, those of masks included.  When every element is drawn from its own attributes,
    the drawing is at most a constant times as large as the document, whatever the outcome of the parse,
    for every token stream.
    Partial: no use elements, and polylines and polygons have a points attribute.  In binary64 the angles
    returned by atan2 must be angles and int(NaN) must not be positive. *)
Theorem C48_linear_real_partial : forall (O : ROracles) (fuel : nat) (mode : errorMode) (toks : list token) (tm : term) (s : svg (RealEnv O)) err log,
  Forall self_contained toks -> parse fuel mode toks tm = PSvg s err log -> svg_ops s <= 84 * doc_size toks.
Proof. exact (fun O => size_of 17 (arc_pieces_real O) (corner_pieces_real O)). Qed.
Print Assumptions C48_linear_real_partial.
Theorem C48_linear_float64_partial : forall (O : Oracles), angles O -> nan_low O ->
  forall (fuel : nat) (mode : errorMode) (toks : list token) (tm : term) (s : svg (F64 O)) err log,
  Forall self_contained toks -> parse fuel mode toks tm = PSvg s err log -> svg_ops s <= 104 * doc_size toks.
Proof. exact (fun O H HN => size_of 22 (arc_pieces_F64 O H HN) (corner_pieces_F64 O H HN)). Qed.
Print Assumptions C48_linear_float64_partial.
(** a token stream with shapes of several kinds, a mask and an error at the end *)
Definition C48_toks : list token :=
  [TStart "svg" []; TStart "rect" [mkAttr "width" "8"; mkAttr "height" "4"; mkAttr "rx" "2"]; TEnd "rect";
   TStart "polygon" [mkAttr "points" "1,2 3,4 5,6"]; TEnd "polygon";
   TStart "mask" [mkAttr "id" "m"]; TStart "path" [mkAttr "d" "M1 2L3 4z"]; TEnd "path"; TEnd "mask"; TStart "polyline" [mkAttr "points" "1"]]%string.
Example C48_linear_example : angles demoA /\ nan_low demoA /\ Forall self_contained C48_toks
  /\ match parse (E := F64 demoA) 6 StrictErrorMode C48_toks TermEOF with
     | PSvg s (Some _) _ => (svg_ops s, map (fun p => List.length (sp_path p)) (sv_paths s)) | _ => (0, []) end = (40, [33; 4]).
Proof.
  split; [exact (proj1 C28_example)|]. split; [apply Z.leb_le; vm_compute; reflexivity|]. split; [|vm_compute; reflexivity].
  repeat constructor; try discriminate; intros [H|H]; discriminate H.
Qed.
(** With use elements no polynomial bound holds: definitions can double what they draw. *)
Theorem C48_exponential_refuted : forall (E : Env), (forall a b, fadd E a b = fadd E b a) -> name_table E ->
  forall (K d : nat) (mode : errorMode),
  exists ns fuel s log, parse (E := E) fuel mode (flat_map tokens ns) TermEOF = PSvg s None log
    /\ K * doc_size (flat_map tokens ns) ^ d < svg_ops s.
Proof. exact @no_polynomial. Qed.
Print Assumptions C48_exponential_refuted.
Theorem C48_exponential_float64_refuted : forall (O : Oracles), name_table (F64 O) ->
  forall (K d : nat) (mode : errorMode),
  exists ns fuel s log, parse (E := F64 O) fuel mode (flat_map tokens ns) TermEOF = PSvg s None log
    /\ K * doc_size (flat_map tokens ns) ^ d < svg_ops s.
Proof. exact (fun O => no_polynomial (F64_add_comm O)). Qed.
Print Assumptions C48_exponential_float64_refuted.
(** The documents, and what is drawn of the first of them. *)
Example C48_exponential_example : doubling 1
  = [Elem "svg" [] [Elem "defs" [] [Elem "line" [mkAttr "id" "a"] []; Elem "use" [mkAttr "id" "aa"; mkAttr "href" "#a"] []; Elem "use" [mkAttr "href" "#a"] []];
                    Elem "use" [mkAttr "href" "#aa"] []]]%string
  /\ map (fun n => match parse (E := D) 6 StrictErrorMode (flat_map tokens (doubling n)) TermEOF with
     | PSvg s None _ => svg_ops s | _ => 0 end) [0; 1; 2; 3; 4; 5] = [2; 4; 8; 16; 32; 64].
Proof. split; [reflexivity|vm_compute; reflexivity]. Qed.
(** Without use elements the size can still be quadratic: a polyline or polygon without a points
    attribute draws the numbers that an earlier element left behind. *)
Theorem C48_leftover_refuted : forall (O : Oracles), name_table (F64 O) -> forall (K : nat) (mode : errorMode),
  exists ns fuel s log, existsb (mentions "use") ns = false
    /\ parse (E := F64 O) fuel mode (flat_map tokens ns) TermEOF = PSvg s None log /\ K * doc_size (flat_map tokens ns) < svg_ops s.
Proof. exact (fun O H => no_linear H (zero_F64 O) eq_refl). Qed.
Print Assumptions C48_leftover_refuted.
Example C48_leftover_example : leftovers 3 2
  = [Elem "svg" [] [Elem "polyline" [mkAttr "points" " 0 0 0 0 0 0"] []; Elem "polyline" [] []; Elem "polyline" [] []]]%string
  /\ match parse (E := D) 6 StrictErrorMode (flat_map tokens (leftovers 3 2)) TermEOF with
     | PSvg s None _ => map (fun p => List.length (sp_path p)) (sv_paths s) | _ => [] end = [3; 3; 3].
Proof. split; [reflexivity|vm_compute; reflexivity]. Qed.

(** * PropertiesInit: style parts a document never mentions (C43) *)
From Verif Require Import SpecInit SpecLift ProofsInit ProofsStyle ExTree PropertiesStyle PropertiesTree PropertiesLift.
Local Open Scope go_scope.
(** In every document in which no element declares anything about the part [p] of a style, all stored
    paths, in the body, drawn by uses and in masks, have the initial value of that part. *)
Theorem C43_initial : forall (E : Env), name_table E ->
  forall (p : part) (fuel : nat) (mode : errorMode) (lenient : bool) (dep m : nat) (ns : list node) (vb : bounds E) (w : world E),
  m + dep <= fuel -> document E (alone E mode m) lenient dep ns vb w -> (lenient = true -> mode <> StrictErrorMode) -> silent_nodes p ns ->
  exists s log, parse (S fuel) mode (flat_map tokens ns) TermEOF = PSvg s None log /\ all_have p (initial E p) s.
Proof. exact (fun E Hn => document_initial Hn). Qed.
Print Assumptions C43_initial.
(** Those are the initial values of SVG for all parts but two, ... *)
Theorem C43_svg_partial : forall (E : Env), name_table E ->
  forall (p : part) (fuel : nat) (mode : errorMode) (lenient : bool) (dep m : nat) (ns : list node) (vb : bounds E) (w : world E),
  p <> StrokeWidth -> p <> LineJoin ->
  m + dep <= fuel -> document E (alone E mode m) lenient dep ns vb w -> (lenient = true -> mode <> StrictErrorMode) -> silent_nodes p ns ->
  exists s log, parse (S fuel) mode (flat_map tokens ns) TermEOF = PSvg s None log /\ all_have p (svg_initial E p) s.
Proof. exact @document_svg_initial. Qed.
Print Assumptions C43_svg_partial.
(** ... and never for those two: a stroke without a width is 2 wide, not 1, and its corners are bevelled, not mitred *)
Theorem C43_svg_refuted : forall (O : Oracles), name_table (F64 O) ->
  forall (p : part) (fuel : nat) (mode : errorMode) (lenient : bool) (dep m : nat) (ns : list node) (vb : bounds (F64 O)) (w : world (F64 O)),
  p = StrokeWidth \/ p = LineJoin ->
  m + dep <= fuel -> document (F64 O) (alone (F64 O) mode m) lenient dep ns vb w -> (lenient = true -> mode <> StrictErrorMode) -> silent_nodes p ns ->
  w_figs (F64 O) w <> [] ->
  exists s log, parse (S fuel) mode (flat_map tokens ns) TermEOF = PSvg s None log /\ ~ all_have p (svg_initial (F64 O) p) s.
Proof. exact @document_not_svg. Qed.
Print Assumptions C43_svg_refuted.
Definition says (a : attr) : string := low_case (trimSpace (a_name a)).
Lemma silent_plain p attrs : Forall (fun a => low_case (a_name a) <> "style"%string /\ ~ List.In p (parts_named (says a))) attrs -> silent p attrs.
Proof.
  intros H ds k v Ha. induction Ha as [|a ds' l ds'' Ha1 _ IH]; [intros []|]. inversion H as [|? ? [H1 H2] H3]; subst. intros Hin. apply in_app_or in Hin as [Hin|Hin]; [|exact (IH H3 Hin)].
  destruct Ha1 as [n w ds1 Hs|n k1 w w1 _ Hp|]; [destruct (H1 Hs)| |destruct Hin].
  destruct Hin as [[= <- <-]|[]]. unfold says in H2. cbn [a_name] in H2. rewrite (padded_trim _ _ Hp) in H2. exact H2.
Qed.
Example C43_example : silent_nodes StrokeWidth [Elem "svg" [] [Elem "path" [mkAttr "stroke" "red"; mkAttr "d" ex_text] []]]
  /\ match parse (E := D) 1 StrictErrorMode (tokens (Elem "svg" [] [Elem "path" [mkAttr "stroke" "red"; mkAttr "d" ex_text] []])) TermEOF with
     | PSvg s None _ => map (fun sp => feqb D (st_lineWidth (sp_style sp)) (V 2 1)) (sv_paths s)
     | _ => [] end = [true].
Proof.
  split; [|vm_compute; reflexivity]. repeat split; apply silent_plain; repeat constructor; try discriminate; vm_compute; intuition discriminate.
Qed.

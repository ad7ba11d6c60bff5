(** * PropertiesReshape: edits that keep a document right (C78) *)
From Coq Require Import ZArith Lia.
From Verif Require Import F64 SpecEnd SpecValid SpecReshape ProofsStyle ProofsAngle ProofsReshape ExPath PropertiesEnd PropertiesLocal PropertiesValid PropertiesPanic.
Local Open Scope string_scope.

(** ** C78: edits and pieces *)
(** An accepted document stays accepted when elements are dropped, with or without what they contain, when texts and comments are dropped
    or added, and when neighbours are put into a group without attributes, anywhere in it and any number of times. *)
Theorem C78_reshaped : forall (E : Env) (mode : errorMode) (fuel k : nat),
  (forall y1 x1 y2 x2 f, k <= f -> raise_angle (E := E) f (fatan2 E y1 x1) (fatan2 E y2 x2) <> NoFuel) -> k <= fuel -> lower_url E ->
  forall (ns ms : list node), reshaped ns ms -> forallb (well_nested false false) ns = true -> flat_map elements_of ms <> []%list ->
  Forall ascii_attrs (flat_map elements_of ns) -> accepts E fuel mode ns -> accepts E fuel mode ms.
Proof. exact (@reshaped_accepted). Qed.
Print Assumptions C78_reshaped.
(** Two pieces make an accepted document when each is one by itself. *)
Theorem C78_joined : forall (E : Env) (mode : errorMode) (fuel k : nat),
  (forall y1 x1 y2 x2 f, k <= f -> raise_angle (E := E) f (fatan2 E y1 x1) (fatan2 E y2 x2) <> NoFuel) -> k <= fuel -> lower_url E ->
  forall (ns ms : list node), forallb (well_nested false false) (ns ++ ms) = true -> flat_map elements_of ns <> []%list -> flat_map elements_of ms <> []%list ->
  Forall ascii_attrs (flat_map elements_of (ns ++ ms)) -> (accepts E fuel mode (ns ++ ms) <-> accepts E fuel mode ns /\ accepts E fuel mode ms).
Proof. exact (@joined_accepted). Qed.
Print Assumptions C78_joined.
(** They make Parse panic when the first does, or the first is accepted and the second does. *)
Theorem C78_joined_panics : forall (E : Env) (mode : errorMode) (fuel k : nat),
  (forall y1 x1 y2 x2 f, k <= f -> raise_angle (E := E) f (fatan2 E y1 x1) (fatan2 E y2 x2) <> NoFuel) -> k <= fuel -> lower_url E ->
  forall (ns ms : list node), forallb (well_nested false false) (ns ++ ms) = true -> flat_map elements_of ns <> []%list ->
  Forall ascii_attrs (flat_map elements_of (ns ++ ms)) ->
  (parse (E := E) fuel mode (flat_map tokens (ns ++ ms)) TermEOF = PPanic <->
   parse (E := E) fuel mode (flat_map tokens ns) TermEOF = PPanic \/ accepts E fuel mode ns /\ parse (E := E) fuel mode (flat_map tokens ms) TermEOF = PPanic).
Proof. exact (@joined_panics). Qed.
Print Assumptions C78_joined_panics.
(** A group is accepted when it is without what it contains, and what it contains is. *)
Theorem C78_grouped : forall (E : Env) (mode : errorMode) (fuel k : nat),
  (forall y1 x1 y2 x2 f, k <= f -> raise_angle (E := E) f (fatan2 E y1 x1) (fatan2 E y2 x2) <> NoFuel) -> k <= fuel -> lower_url E ->
  forall (attrs : list attr) (ns : list node), forallb (well_nested false false) ns = true -> flat_map elements_of ns <> []%list ->
  Forall ascii_attrs (("g", attrs) :: flat_map elements_of ns) ->
  (accepts E fuel mode [Elem "g" attrs ns] <-> accepts E fuel mode [Elem "g" attrs []] /\ accepts E fuel mode ns).
Proof. exact (@grouped_accepted). Qed.
Print Assumptions C78_grouped.
(** The same for the numbers of Go. *)
Theorem C78_float64 : forall (O : Oracles) (mode : errorMode) (fuel : nat) (ns ms : list node), angles O -> 1 <= fuel -> lower_url (F64 O) ->
  reshaped ns ms -> forallb (well_nested false false) ns = true -> flat_map elements_of ms <> []%list -> Forall ascii_attrs (flat_map elements_of ns) ->
  accepts (F64 O) fuel mode ns -> accepts (F64 O) fuel mode ms.
Proof. intros O mode fuel ns ms Ha Hf Hu. exact (reshaped_accepted mode fuel 1 (turns_F64 O Ha) Hf Hu ns ms). Qed.
Print Assumptions C78_float64.

(** ** Concrete cases *)
(** the document of C74 without its gradient, with the outer group opened, a comment, a text and a bare group added *)
Definition reshaped_doc : list node :=
  [Misc; Elem "svg" [mkAttr "viewBox" "0 0 9,9"; mkAttr "width" "20mm"]
    [Elem "defs" [] [Elem "rect" [mkAttr "width" "kept"] []];
     Elem "g" [] [Elem "path" [mkAttr "d" "M1 2L3 4z"; mkAttr "fill" "#f0c"] []; Elem "polygon" [mkAttr "points" "1 2 3 4"] []]; Chars "text"]].
Lemma kept_all ns : Forall (fun n => match n with Elem _ _ [] => True | _ => False end) ns -> reshaped ns ns.
Proof. induction 1 as [|[name attrs [|]|s|] ns H _ IH]; try contradiction; [constructor|]. apply rs_keep; [constructor|exact IH]. Qed.
Lemma dropped_all ns : reshaped ns [].
Proof. induction ns; [constructor|]. apply rs_drop. assumption. Qed.
Example C78_example : reshaped (valid_doc "#f0c") reshaped_doc /\ accepts (F64 demoA) 1 StrictErrorMode (valid_doc "#f0c") /\ accepts (F64 demoA) 1 StrictErrorMode reshaped_doc.
Proof.
  assert (R : reshaped (valid_doc "#f0c") reshaped_doc).
  { apply rs_comment. apply rs_keep; [|constructor]. apply rs_keep; [apply rs_drop, kept_all; repeat constructor|].
    apply rs_unwrap; [discriminate|reflexivity|].
    apply (rs_group [Elem "path" [mkAttr "d" "M1 2L3 4z"; mkAttr "fill" "#f0c"] []; Elem "polygon" [mkAttr "points" "1 2 3 4"] []]); [apply kept_all; repeat constructor|]. apply rs_text, dropped_all. }
  destruct C74_example as (H1 & H2 & H3 & _ & H5 & _ & H7 & _). split; [exact R|]. split; [exact H7|].
  exact (C78_float64 demoA StrictErrorMode 1 (valid_doc "#f0c") reshaped_doc H1 (le_n 1) H2 R H3 ltac:(discriminate) H5 H7).
Qed.
(** opening a definition would not do: what is kept for later is not looked at *)
Example C78_defs_example :
  accepts (F64 demoA) 1 StrictErrorMode [Elem "defs" [] [Elem "rect" [mkAttr "width" "kept"] []]]
  /\ exists e, refuses (F64 demoA) 1 StrictErrorMode [Elem "rect" [mkAttr "width" "kept"] []] e.
Proof. split; [eexists; apply said_of; vm_compute; reflexivity|eexists; eexists; apply said_of; vm_compute; reflexivity]. Qed.
(** two pieces, of which the second makes Parse panic *)
Example C78_joined_example :
  parse (E := F64 demoA) 1 StrictErrorMode (flat_map tokens (valid_doc "#f0c" ++ valid_doc "#12")) TermEOF = PPanic.
Proof.
  apply (C78_joined_panics (F64 demoA) StrictErrorMode 1 1 (turns_F64 demoA (proj1 C28_example)) (le_n 1) lower_demo (valid_doc "#f0c") (valid_doc "#12") eq_refl ltac:(discriminate) (ascii_all (flat_map elements_of (valid_doc "#f0c" ++ valid_doc "#12")) eq_refl)).
  right. split; [apply C74_example|]. apply panicked_iff. vm_compute. reflexivity.
Qed.

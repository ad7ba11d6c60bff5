(** * PropertiesValid: exactly which documents are accepted (C74) *)
From Coq Require Import ZArith Lia.
From Verif Require Import F64 SpecEnd SpecValid ProofsStyle ProofsAngle ProofsValid4 ExPath PropertiesEnd PropertiesLocal.
Local Open Scope string_scope.

(** ** C74: documents *)
(** A document with attributes in ASCII, where definitions and gradients are not nested and there is no <use> but in <defs>, is accepted
    exactly when each of its elements is right for the place where it stands: its name is known (or the mode is not strict), and each
    of its attributes and style declarations has a value of the kind it takes.  Of an element that <defs> keeps for later only the
    style declarations count.
    The condition on [raise_angle] is that of C28. *)
Theorem C74_accepted : forall (E : Env) (mode : errorMode) (fuel k : nat),
  (forall y1 x1 y2 x2 f, k <= f -> raise_angle (E := E) f (fatan2 E y1 x1) (fatan2 E y2 x2) <> NoFuel) -> k <= fuel -> lower_url E ->
  forall (ns : list node), forallb (well_nested false false) ns = true -> flat_map elements_of ns <> []%list ->
  Forall ascii_attrs (flat_map elements_of ns) ->
  (accepts E fuel mode ns <-> Forall (valid_at E mode) (flat_map (placed false false) ns)).
Proof. exact (@accepted_valid). Qed.
Print Assumptions C74_accepted.
(** Without definitions and gradients it does not matter where the elements stand. *)
Theorem C74_plain : forall (E : Env) (mode : errorMode) (fuel k : nat),
  (forall y1 x1 y2 x2 f, k <= f -> raise_angle (E := E) f (fatan2 E y1 x1) (fatan2 E y2 x2) <> NoFuel) -> k <= fuel -> lower_url E ->
  forall (ns : list node), no_context (flat_map elements_of ns) -> flat_map elements_of ns <> []%list ->
  Forall ascii_attrs (flat_map elements_of ns) ->
  (accepts E fuel mode ns <-> Forall (valid_element E mode) (flat_map elements_of ns)).
Proof. exact (@accepted_plain). Qed.
Print Assumptions C74_plain.
(** The same for the numbers of Go. *)
Theorem C74_float64 : forall (O : Oracles) (mode : errorMode) (fuel : nat) (ns : list node), angles O -> 1 <= fuel -> lower_url (F64 O) ->
  forallb (well_nested false false) ns = true -> flat_map elements_of ns <> []%list -> Forall ascii_attrs (flat_map elements_of ns) ->
  (accepts (F64 O) fuel mode ns <-> Forall (valid_at (F64 O) mode) (flat_map (placed false false) ns)).
Proof. intros O mode fuel ns Ha Hf Hu. exact (accepted_valid mode fuel 1 (turns_F64 O Ha) Hf Hu ns). Qed.
Print Assumptions C74_float64.

(** ** Values *)
(** Exactly which texts are lengths, with or without a percentage to resolve. *)
Theorem C74_length : forall (E : Env) (box : bounds E) (ref : percRef) (v : string), all_chars is_ascii v = true ->
  ((exists x, resolveUnit (E := E) box v ref = Ret x) <-> valid_length E v) /\ ((exists x, parseBasicFloat (E := E) v = Ret x) <-> valid_length E v).
Proof. intros E box ref v Ha. split; [exact (resolve_iff box v ref Ha)|exact (float_iff v Ha)]. Qed.
Print Assumptions C74_length.
(** Exactly which texts are colours. *)
Theorem C74_colour : forall (E : Env) (v : string), all_chars is_ascii v = true -> ((exists c, parseSVGColor (E := E) v = Ret c) <-> valid_colour E v).
Proof. exact (@colour_iff). Qed.
Print Assumptions C74_colour.
(** Exactly which texts refer to a mask, and which are the offset of a stop. *)
Theorem C74_selector : forall (v : string), (exists id, parseSelector v = Ret id) <-> valid_selector v.
Proof. exact selector_iff. Qed.
Print Assumptions C74_selector.
Theorem C74_fraction : forall (E : Env) (v : string), all_chars is_ascii v = true -> ((exists x, readFraction (E := E) v = Ret x) <-> valid_fraction E v).
Proof. exact (@fraction_iff). Qed.
Print Assumptions C74_fraction.
(** Exactly which texts are declarations of a style attribute or an attribute, and of what. *)
Theorem C74_declaration : forall (E : Env) (s k v : string), all_chars is_ascii s = true ->
  (declaration s k v <-> exists n t q, split1 ":" s = (n :: t :: q)%list /\ k = trimSpace (toLower E n) /\ v = trimSpace t).
Proof. exact (@decl_iff). Qed.
Print Assumptions C74_declaration.

(** ** Concrete cases *)
Lemma ascii_all els : forallb (fun el : string * list attr => forallb (fun a => all_chars is_ascii (a_name a) && all_chars is_ascii (a_val a)) (snd el)) els = true -> Forall ascii_attrs els.
Proof.
  intros H. apply Forall_forall. intros el Hi. rewrite forallb_forall in H. specialize (H el Hi). apply Forall_forall. intros a Ha. rewrite forallb_forall in H. specialize (H a Ha). apply andb_prop in H. exact H.
Qed.
(** a gradient among definitions, with a style, a transform and a stop, a shape with an unknown element, path data, points and a mask *)
Definition valid_doc (colour : string) : list node :=
  [Elem "svg" [mkAttr "viewBox" "0 0 9,9"; mkAttr "width" "20mm"]
    [Elem "defs" [] [Elem "radialGradient" [mkAttr "id" "a"; mkAttr "r" "x"; mkAttr "r" "50%"; mkAttr "gradientTransform" "scale(2)"]
        [Elem "stop" [mkAttr "offset" "10%%"; mkAttr "style" "stop-color : RED; stop-opacity:.5"] []];
        Elem "rect" [mkAttr "width" "kept"] []];
     Elem "g" [mkAttr "Style" " Fill : none ;stroke-dasharray:1 , 2;; x"; mkAttr "mask" "url(#m)"]
       [Elem "path" [mkAttr "d" "M1 2L3 4z"; mkAttr "fill" colour] []; Elem "polygon" [mkAttr "points" "1 2 3 4"] []];
     Elem "mask" [mkAttr "id" "m"; mkAttr "x" "-10%"] []]].
Example C74_example :
  angles demoA /\ lower_url (F64 demoA) /\ forallb (well_nested false false) (valid_doc "#f0c") = true
  /\ flat_map elements_of (valid_doc "#f0c") <> []%list /\ Forall ascii_attrs (flat_map elements_of (valid_doc "#f0c"))
  /\ List.length (flat_map (placed false false) (valid_doc "#f0c")) = 9
  /\ accepts (F64 demoA) 1 StrictErrorMode (valid_doc "#f0c")
  /\ Forall (valid_at (F64 demoA) StrictErrorMode) (flat_map (placed false false) (valid_doc "#f0c")).
Proof.
  assert (A : accepts (F64 demoA) 1 StrictErrorMode (valid_doc "#f0c")) by (eexists; apply said_of; vm_compute; reflexivity).
  split; [exact (proj1 C28_example)|]. split; [exact lower_demo|]. split; [reflexivity|]. split; [discriminate|]. split; [apply ascii_all; reflexivity|]. split; [reflexivity|]. split; [exact A|].
  apply (C74_float64 demoA StrictErrorMode 1 (valid_doc "#f0c") (proj1 C28_example) (le_n 1) lower_demo eq_refl ltac:(discriminate) (ascii_all (flat_map elements_of (valid_doc "#f0c")) eq_refl)). exact A.
Qed.
(** one wrong colour, and the document is refused *)
Example C74_wrong_example :
  ~ valid_colour (F64 demoA) "#12" /\ ~ Forall (valid_at (F64 demoA) IgnoreErrorMode) (flat_map (placed false false) (valid_doc "#12"))
  /\ ~ accepts (F64 demoA) 1 IgnoreErrorMode (valid_doc "#12").
Proof.
  assert (V : ~ valid_colour (F64 demoA) "#12").
  { intros V. apply (C74_colour (F64 demoA) "#12" eq_refl) in V as (c & V). vm_compute in V. discriminate. }
  assert (N : ~ Forall (valid_at (F64 demoA) IgnoreErrorMode) (flat_map (placed false false) (valid_doc "#12"))).
  { intros H. rewrite Forall_forall in H. assert (K := H (false, false, ("path", [mkAttr "d" "M1 2L3 4z"; mkAttr "fill" "#12"])) ltac:(cbn; tauto)).
    apply V. apply (vd_colour _ _ _ _ (vt_decls _ _ _ K (mkAttr "fill" "#12") "fill" "#12" ltac:(cbn; tauto)
      ltac:(cbn; exists "fill", "#12", "", "fill"; repeat split; try reflexivity; try (left; reflexivity); exists "", ""; repeat split; reflexivity))). left. reflexivity. }
  split; [exact V|]. split; [exact N|]. intros A. apply N.
  apply (C74_float64 demoA IgnoreErrorMode 1 (valid_doc "#12") (proj1 C28_example) (le_n 1) lower_demo eq_refl ltac:(discriminate) (ascii_all (flat_map elements_of (valid_doc "#12")) eq_refl)). exact A.
Qed.
(** values, from the definitions alone *)
Example C74_values :
  valid_colour (F64 demoA) "#f0cAB" /\ valid_colour (F64 demoA) "rgb( 10 %,+20,-3" /\ valid_selector "url(#a)b" /\ valid_length (F64 demoA) " 12 px".
Proof.
  split; [|split; [|split]].
  - do 5 right. exists "f"%char, "0"%char, "c"%char, "AB". repeat split; discriminate.
  - do 3 right. left. exists " 10 %", "+20", "-3", "". split; [reflexivity|]. split; [left; reflexivity|].
    assert (P : forall a w b, blank a = true -> blank b = true -> all_chars is_ascii (w) = true -> trimSpace w = w -> trimSpace (a ++ w ++ b) = w -> all_chars is_ascii (a ++ w ++ b) = true -> padded (a ++ w ++ b) w).
    { intros a w b _ _ _ _ H Ha. apply padded_iff; [exact Ha|exact H]. }
    split; [|split].
    + exists " 10 ", "%", "10". split; [reflexivity|]. split; [right; left; reflexivity|]. split; [exact (P " " "10" " " eq_refl eq_refl eq_refl eq_refl eq_refl eq_refl)|].
      exists "", "10". split; [reflexivity|]. split; [left; reflexivity|]. split; [reflexivity|]. cbn. lia.
    + exists "+20", "", "+20". split; [reflexivity|]. split; [left; reflexivity|]. split; [exact (P "" "+20" "" eq_refl eq_refl eq_refl eq_refl eq_refl eq_refl)|].
      exists "+", "20". split; [reflexivity|]. split; [right; left; reflexivity|]. split; [reflexivity|]. cbn. lia.
    + exists "-3", "", "-3". split; [reflexivity|]. split; [left; reflexivity|]. split; [exact (P "" "-3" "" eq_refl eq_refl eq_refl eq_refl eq_refl eq_refl)|].
      exists "-", "3". split; [reflexivity|]. split; [right; right; left; reflexivity|]. split; [reflexivity|]. cbn. lia.
  - right. right. exists "a", "b". split; reflexivity.
  - exists "12". split; [|vm_compute; discriminate]. apply (ld_unit " 12 px" "12 " UPx); [discriminate|apply padded_iff; reflexivity|apply padded_iff; reflexivity].
Qed.

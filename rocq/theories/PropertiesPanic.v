(** * PropertiesPanic: exactly which documents make the parser panic (C76) *)
From Coq Require Import ZArith Lia.
From Verif Require Import F64 SpecEnd SpecValid SpecPanic ProofsStyle ProofsAngle ProofsPanic2 ExPath PropertiesEnd PropertiesLocal PropertiesValid.
Local Open Scope string_scope.

(** ** C76: documents *)
(** Of the documents of C74, with or without elements, exactly those make Parse panic in which the first element that is not right for the
    place where it stands has, as its first wrong declaration, a fill or stroke that is a colour cut short; or is a stop in a gradient with
    right declarations, whose first wrong attribute or part of its style is such a stop-color. *)
Theorem C76_panics : forall (E : Env) (mode : errorMode) (fuel k : nat),
  (forall y1 x1 y2 x2 f, k <= f -> raise_angle (E := E) f (fatan2 E y1 x1) (fatan2 E y2 x2) <> NoFuel) -> k <= fuel -> lower_url E ->
  forall (ns : list node), forallb (well_nested false false) ns = true -> Forall ascii_attrs (flat_map elements_of ns) ->
  (parse (E := E) fuel mode (flat_map tokens ns) TermEOF = PPanic <-> first_wrong (valid_at E mode) (panic_at E mode) (flat_map (placed false false) ns)).
Proof. exact (@document_panics). Qed.
Print Assumptions C76_panics.
(** It returns an error for exactly the others of which not all elements are right, and it always ends. *)
Theorem C76_errors : forall (E : Env) (mode : errorMode) (fuel k : nat),
  (forall y1 x1 y2 x2 f, k <= f -> raise_angle (E := E) f (fatan2 E y1 x1) (fatan2 E y2 x2) <> NoFuel) -> k <= fuel -> lower_url E ->
  forall (ns : list node), forallb (well_nested false false) ns = true -> flat_map elements_of ns <> []%list -> Forall ascii_attrs (flat_map elements_of ns) ->
  ((exists e, refuses E fuel mode ns e) <->
   ~ Forall (valid_at E mode) (flat_map (placed false false) ns) /\ ~ first_wrong (valid_at E mode) (panic_at E mode) (flat_map (placed false false) ns)).
Proof. exact (@document_errs). Qed.
Print Assumptions C76_errors.
Theorem C76_ends : forall (E : Env) (mode : errorMode) (fuel k : nat),
  (forall y1 x1 y2 x2 f, k <= f -> raise_angle (E := E) f (fatan2 E y1 x1) (fatan2 E y2 x2) <> NoFuel) -> k <= fuel -> lower_url E ->
  forall (ns : list node), forallb (well_nested false false) ns = true -> parse (E := E) fuel mode (flat_map tokens ns) TermEOF <> PNoFuel.
Proof. exact (@document_ends). Qed.
Print Assumptions C76_ends.
(** The same for the numbers of Go. *)
Theorem C76_float64 : forall (O : Oracles) (mode : errorMode) (fuel : nat) (ns : list node), angles O -> 1 <= fuel -> lower_url (F64 O) ->
  forallb (well_nested false false) ns = true -> Forall ascii_attrs (flat_map elements_of ns) ->
  (parse (E := F64 O) fuel mode (flat_map tokens ns) TermEOF = PPanic <->
   first_wrong (valid_at (F64 O) mode) (panic_at (F64 O) mode) (flat_map (placed false false) ns)).
Proof. intros O mode fuel ns Ha Hf Hu. exact (document_panics mode fuel 1 (turns_F64 O Ha) Hf Hu ns). Qed.
Print Assumptions C76_float64.
(** Exactly which colours make the colour parser panic. *)
Theorem C76_colour : forall (E : Env) (v : string), all_chars is_ascii v = true -> (parseSVGColor (E := E) v = Panic <-> panic_colour E v).
Proof. exact (@colour_panic). Qed.
Print Assumptions C76_colour.

(** ** Concrete cases *)
Definition panicked (E : Env) (mode : errorMode) (ns : list node) : bool := match parse (E := E) 1 mode (flat_map tokens ns) TermEOF with PPanic => true | _ => false end.
Lemma panicked_iff E mode ns : panicked E mode ns = true -> parse (E := E) 1 mode (flat_map tokens ns) TermEOF = PPanic.
Proof. unfold panicked. destruct (parse _ _ _ _); congruence. Qed.
(** the document of C74 with a colour that is cut short: it panics, and so its first wrong element is as described *)
Example C76_example :
  angles demoA /\ lower_url (F64 demoA) /\ forallb (well_nested false false) (valid_doc "#12") = true
  /\ Forall ascii_attrs (flat_map elements_of (valid_doc "#12"))
  /\ parse (E := F64 demoA) 1 IgnoreErrorMode (flat_map tokens (valid_doc "#12")) TermEOF = PPanic
  /\ first_wrong (valid_at (F64 demoA) IgnoreErrorMode) (panic_at (F64 demoA) IgnoreErrorMode) (flat_map (placed false false) (valid_doc "#12")).
Proof.
  assert (A : parse (E := F64 demoA) 1 IgnoreErrorMode (flat_map tokens (valid_doc "#12")) TermEOF = PPanic) by (apply panicked_iff; vm_compute; reflexivity).
  split; [exact (proj1 C28_example)|]. split; [exact lower_demo|]. split; [reflexivity|]. split; [apply ascii_all; reflexivity|]. split; [exact A|].
  apply (C76_float64 demoA IgnoreErrorMode 1 (valid_doc "#12") (proj1 C28_example) (le_n 1) lower_demo eq_refl (ascii_all (flat_map elements_of (valid_doc "#12")) eq_refl)). exact A.
Qed.
(** what stands first decides: two declarations of an element, and an element and its child *)
Definition order_doc (attrs : list attr) : list node := [Elem "g" attrs []].
Definition child_doc (a b : attr) : list node := [Elem "circle" [a] [Elem "g" [b] []]].
Definition cut_short := mkAttr "fill" "rgb(1,,2)".
Definition no_width := mkAttr "stroke-width" "x".
Example C76_order_example :
  parse (E := F64 demoA) 1 IgnoreErrorMode (flat_map tokens (order_doc [cut_short; no_width])) TermEOF = PPanic
  /\ (exists e, refuses (F64 demoA) 1 IgnoreErrorMode (order_doc [no_width; cut_short]) e)
  /\ ~ first_wrong (valid_at (F64 demoA) IgnoreErrorMode) (panic_at (F64 demoA) IgnoreErrorMode) (flat_map (placed false false) (order_doc [no_width; cut_short]))
  /\ parse (E := F64 demoA) 1 IgnoreErrorMode (flat_map tokens (child_doc (mkAttr "r" "1") cut_short)) TermEOF = PPanic
  /\ (exists e, refuses (F64 demoA) 1 IgnoreErrorMode (child_doc (mkAttr "r" "x") cut_short) e).
Proof.
  assert (A : exists e, refuses (F64 demoA) 1 IgnoreErrorMode (order_doc [no_width; cut_short]) e) by (eexists; eexists; apply said_of; vm_compute; reflexivity).
  split; [apply panicked_iff; vm_compute; reflexivity|]. split; [exact A|]. split.
  - apply (C76_errors (F64 demoA) IgnoreErrorMode 1 1 (turns_F64 demoA (proj1 C28_example)) (le_n 1) lower_demo (order_doc [no_width; cut_short]) eq_refl ltac:(discriminate) (ascii_all (flat_map elements_of (order_doc [no_width; cut_short])) eq_refl)). exact A.
  - split; [apply panicked_iff; vm_compute; reflexivity|]. eexists; eexists; apply said_of; vm_compute; reflexivity.
Qed.
(** from the definitions alone: a stop with an empty colour, in a gradient and not elsewhere *)
Example C76_stop_example : forall mode,
  panic_at (F64 demoA) mode (false, true, ("stop", [mkAttr "stop-color" ""]))
  /\ ~ panic_at (F64 demoA) mode (false, false, ("stop", [mkAttr "stop-color" ""])).
Proof.
  intros mode.
  assert (D : forall k v, declaration "stop-color:" k v -> k = "stop-color").
  { intros k v H. apply (proj1 (C74_declaration (F64 demoA) "stop-color:" k v eq_refl)) in H as (n & t & q & H & -> & _). vm_compute in H. injection H as <- <- <-. reflexivity. }
  split.
  - right. cbn [fst snd]. split.
    + constructor; [|constructor]. intros k v H. apply D in H. subst k. constructor; cbn; intuition discriminate.
    + split; [reflexivity|]. split; [reflexivity|]. exists [], (Datatypes.inl (mkAttr "stop-color" "")), []. split; [reflexivity|]. split; [constructor|].
      exists "". split; [split; reflexivity|]. split; [reflexivity|]. split; [discriminate|]. split; [vm_compute; reflexivity|]. left. reflexivity.
  - intros [(pre & x & post & H & _ & (k & v & K & N & _))|(_ & H & _)]; [|discriminate]. cbn in H. destruct pre as [|y pre]; [|destruct pre; discriminate]. injection H as <- <-. apply D in K. subst k. destruct N; discriminate.
Qed.
(** colours cut short, and some that are only wrong *)
Example C76_colours :
  panic_colour (F64 demoA) "" /\ panic_colour (F64 demoA) "#ab" /\ panic_colour (F64 demoA) "rgb(,x,y" /\ ~ panic_colour (F64 demoA) "#xyz" /\ ~ panic_colour (F64 demoA) "rgb(1,2)".
Proof.
  assert (K : forall v, hasPrefix (low_case v) "url" = false -> low_case v <> "none" -> colorname (F64 demoA) (low_case v) = None ->
    (v = "" \/ (exists s, v = String "#" s /\ String.length s < 3) \/ exists a b c p, v = "rgb(" ++ a ++ "," ++ b ++ "," ++ c ++ p /\ List.In p [""; ")"] /\ lacks "," a = true /\ lacks "," b = true /\ lacks "," c = true
       /\ (a = "" \/ valid_component a /\ b = "" \/ valid_component a /\ valid_component b /\ c = "")) -> panic_colour (F64 demoA) v) by (intros; repeat split; assumption).
  split; [|split; [|split; [|split]]].
  - apply K; [reflexivity|discriminate|reflexivity|]. left. reflexivity.
  - apply K; [reflexivity|discriminate|reflexivity|]. right. left. exists "ab". split; [reflexivity|cbn; lia].
  - apply K; [reflexivity|discriminate|reflexivity|]. right. right. exists "", "x", "y", "". repeat split; try reflexivity; left; reflexivity.
  - intros H. apply (C76_colour (F64 demoA) "#xyz" eq_refl) in H. vm_compute in H. discriminate.
  - intros H. apply (C76_colour (F64 demoA) "rgb(1,2)" eq_refl) in H. vm_compute in H. discriminate.
Qed.

(** * PropertiesTrans: exactly which texts are transforms (C72) *)
From Coq Require Import ZArith Lia.
From Verif Require Import F64 SpecRunes SpecTrans ProofsStyle ProofsTrans ProofsF64 ExTree.
Local Open Scope string_scope.

(** ** C72: transforms *)
(** A text in ASCII is accepted as a transform exactly when each part of it between closing brackets is blank or a function with
    the numbers it takes; otherwise there is an error. *)
Theorem C72_accepted : forall (E : Env) (v : string) (c : cursor E) par rest, all_chars is_ascii v = true -> c_stack c = (par :: rest)%list ->
  ((exists c' m, parseTransform v c = (c', Ret m)) <-> exists fs, transform_reads_as E v fs)
  /\ ((~ exists fs, transform_reads_as E v fs) -> exists c' e, parseTransform v c = (c', Err e)).
Proof. exact (@transform_accepted). Qed.
Print Assumptions C72_accepted.
(** The result is the transform of the parent followed by the functions of the text, from the last to the first (what that means is
    the subject of C17 and C18); of the state, only the scratch list of numbers changes. *)
Theorem C72_result : forall (E : Env) (v : string) (fs : list (tfun E)) (c : cursor E) par rest,
  all_chars is_ascii v = true -> transform_reads_as E v fs -> c_stack c = (par :: rest)%list ->
  exists c', parseTransform v c = (c', Ret (fold_left (tfun_apply E) (rev fs) (st_transform par))) /\ same_but_points c c'.
Proof. exact (@transform_reads_all). Qed.
Print Assumptions C72_result.
(** A document with any other transform, in an attribute or in a style, is not accepted in any mode. *)
Theorem C72_document : forall (E : Env) (fuel : nat) (mode : errorMode) pre name attrs post (tm : term) a ds v,
  List.In a attrs -> attr_decls a ds -> List.In ("transform", v) ds -> all_chars is_ascii v = true -> (~ exists fs, transform_reads_as E v fs) ->
  forall s log, parse (E := E) fuel mode (pre ++ TStart name attrs :: post) tm <> PSvg s None log.
Proof. exact (@transform_fails). Qed.
Print Assumptions C72_document.
(** Refuted: SVG separates the functions by white space and commas.  A function after a comma is never read. *)
Theorem C72_comma_refuted : forall (E : Env) before l q after,
  before = "" \/ ends_with (Ascii.eqb ")") before = true -> blank l = true -> all_chars (fun c => negb (Ascii.eqb c ")")) q = true ->
  forall fs, ~ transform_reads_as E (before ++ l ++ "," ++ q ++ ")" ++ after) fs.
Proof. exact (@comma_never). Qed.
Print Assumptions C72_comma_refuted.

(** ** Concrete cases *)
Definition val (w : string) : F D := match word_value D w with Some v => v | None => fnum D 0 end.
Lemma val_word w : match word_value D w with Some _ => true | None => false end = true -> word_value D w = Some (val w).
Proof. unfold val. destruct (word_value D w); [reflexivity|discriminate]. Qed.
(** any characters between the numbers, names in any case, translate with one number, and no closing bracket at the end *)
Definition odd_text : string := " translate(3;) ROTATE (30x-1.5.5)scale( 2".
Definition odd_functions : list (tfun D) := [Translate D (val "3") (val "3"); RotateAt D (val "30") (val "-1.5") (val ".5"); Scale D (val "2") (val "2")].
Example C72_example : all_chars is_ascii odd_text = true /\ transform_reads_as D odd_text odd_functions
  /\ exists c : cursor D, exists par rest, c_stack c = (par :: rest)%list.
Proof.
  split; [reflexivity|]. split; [|exists (cursor0 IgnoreErrorMode); do 2 eexists; reflexivity].
  exists [[Translate D (val "3") (val "3")]; [RotateAt D (val "30") (val "-1.5") (val ".5")]; [Scale D (val "2") (val "2")]]. split; [|reflexivity].
  replace (SpecTrans.parts_of odd_text) with [" translate(3;"; " ROTATE (30x-1.5.5"; "scale( 2"] by reflexivity.
  constructor; [|constructor; [|constructor; [|constructor]]].
  - apply (pr_call D " " "translate" "" "3;" [val "3"]); try reflexivity; [|right; eexists; repeat split].
    replace (number_words _) with ["3"] by (vm_compute; reflexivity). repeat (constructor; [apply val_word; vm_compute; reflexivity|]). constructor.
  - apply (pr_call D " " "ROTATE" " " "30x-1.5.5" [val "30"; val "-1.5"; val ".5"]); try reflexivity; [|left; split; reflexivity].
    replace (number_words _) with ["30"; "-1.5"; ".5"] by (vm_compute; reflexivity). repeat (constructor; [apply val_word; vm_compute; reflexivity|]). constructor.
  - apply (pr_call D "" "scale" "" " 2" [val "2"]); try reflexivity; [|left; split; [reflexivity|right; split; reflexivity]].
    replace (number_words _) with ["2"] by (vm_compute; reflexivity). repeat (constructor; [apply val_word; vm_compute; reflexivity|]). constructor.
Qed.
(** the text of SVG "translate(1 2), scale(2)", and a document with it *)
Example C72_comma_example :
  (~ exists fs, transform_reads_as D "translate(1 2), scale(2)" fs)
  /\ List.In (mkAttr "transform" "translate(1 2), scale(2)") [mkAttr "id" "a"; mkAttr "transform" "translate(1 2), scale(2)"]
  /\ attr_decls (mkAttr "transform" "translate(1 2), scale(2)") [("transform", "translate(1 2), scale(2)")].
Proof.
  split; [intros (fs & H); exact (C72_comma_refuted D "translate(1 2)" "" " scale(2" "" (or_intror eq_refl) eq_refl eq_refl fs H)|].
  split; [right; left; reflexivity|].
  apply (ad_pres "transform" "transform"); try reflexivity; try discriminate; exists "", ""; repeat split; reflexivity.
Qed.

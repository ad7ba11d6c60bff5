(** * PropertiesStream: termination for arbitrary token streams (C28) *)
From Coq Require Import Floats.SpecFloat Lia.
From Verif Require Import ProofsStream2 PropertiesEnd ExPath.
Local Open Scope go_scope.

(** C28 for every token stream, well formed or not, with nested <defs> and anything inside gradients: Parse ends
    if no reference between the definitions of the stream leads back to its group ([all_refs] lists them), with
    a fuel of three more than the number of these references.
    Partial: references must be acyclic; by [C28_self_use_refuted] this is needed. *)
Theorem C28_streams_partial : forall (O : Oracles) (fuel : nat) (mode : errorMode) (toks : list token) (tm : term),
  angles O -> acyclic (all_refs toks) -> length (all_refs toks) + 3 <= fuel -> parse (E := F64 O) fuel mode toks tm <> PNoFuel.
Proof. exact streams_end_F64. Qed.
Print Assumptions C28_streams_partial.
Theorem C28_streams_any_numbers_partial : forall (E : Env) (k fuel : nat) (mode : errorMode) (toks : list token) (tm : term),
  (forall y1 x1 y2 x2 f, k <= f -> raise_angle (E := E) f (fatan2 E y1 x1) (fatan2 E y2 x2) <> NoFuel) ->
  acyclic (all_refs toks) -> length (all_refs toks) + k + 2 <= fuel -> parse (E := E) fuel mode toks tm <> PNoFuel.
Proof. exact @streams_end. Qed.
Print Assumptions C28_streams_any_numbers_partial.
(** Fuel is only a device of the model: a parse that ends gives the same result with more of it. *)
Theorem C28_fuel : forall (E : Env) (fuel fuel' : nat) (mode : errorMode) (toks : list token) (tm : term),
  fuel <= fuel' -> parse (E := E) fuel mode toks tm <> PNoFuel -> parse (E := E) fuel' mode toks tm = parse fuel mode toks tm.
Proof. exact @parse_fuel. Qed.
Print Assumptions C28_fuel.

(** a stream that is no document: definitions inside definitions, drawn by a use that so starts new
    definitions, shapes inside a gradient, ends without starts *)
Definition C28_stream : list token :=
  [TStart "svg" []; TStart "defs" []; TStart "line" [mkAttr "id" "a"; mkAttr "x2" "3"]; TEnd "g"; TStart "defs" [mkAttr "id" "b"];
   TStart "use" [mkAttr "href" "#a"]; TEnd "defs"; TStart "linearGradient" [mkAttr "id" "q"]; TStart "line" [mkAttr "x2" "3"];
   TEnd "linearGradient"; TStart "use" [mkAttr "href" "#b"]; TStart "use" [mkAttr "id" "c"; mkAttr "href" "#b"]; TEnd "defs"; TStart "use" [mkAttr "href" "#c"]]%string.
Definition C28_rank (s : string) : nat := if String.eqb s "a" then 0 else if String.eqb s "b" then 1 else if String.eqb s "c" then 2 else 3.
Lemma ranked refs (rank : string -> nat) : Forall (fun r => match snd r with String a x => if Ascii.eqb a "#" then rank x < rank (fst r) else True | _ => True end) refs -> acyclic refs.
Proof.
  intros H. assert (H1 : forall g x, List.In (g, String "#" x) refs -> rank x < rank g).
  { intros g x Hin. rewrite Forall_forall in H. exact (H _ Hin). }
  assert (Hr : forall g x, leads refs g x -> rank x < rank g). { induction 1 as [g x Hin|g x y Hin _ IH]; [auto|]. apply H1 in Hin. lia. }
  intros g Hl. apply Hr in Hl. lia.
Qed.
Example C28_stream_example :
  all_refs C28_stream = [("b", "#a"); ("c", "#b")]%string /\ acyclic (all_refs C28_stream)
  /\ match parse (E := F64 demoA) 5 StrictErrorMode C28_stream TermEOF with
     | PSvg s None _ => Some (length (sv_paths s), map fst (sv_defs s)) | _ => None end = Some (3, ["c"; "b"; "a"]%string).
Proof.
  split; [reflexivity|]. split; [|vm_compute; reflexivity].
  change (all_refs C28_stream) with [("b", "#a"); ("c", "#b")]%string. apply (ranked _ C28_rank). repeat constructor.
Qed.

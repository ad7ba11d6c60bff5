(** * PropertiesCalm: panics in arbitrary token streams (C29) *)
From Coq Require Import Floats.SpecFloat Lia.
From Verif Require Import ProofsCalm PropertiesEnd ExPath.
Local Open Scope go_scope.

(** C29 for every token stream, with nested <defs>, anything inside gradients, and ends that do not match
    their starts: Parse does not panic if no fill, stroke or stop-color has one of the values that make the colour
    parser panic, every end follows some start, and every </g> stored in a group of definitions follows the <g>
    in the same group ([orderly_stream]; the last condition only counts if there is a <use>).
    Partial: these conditions.  By [C29_fill_refuted], [C29_ends_refuted] and [C29_group_refuted] each is needed. *)
Theorem C29_streams_partial : forall (E : Env) (fuel : nat) (mode : errorMode) (toks : list token) (tm : term),
  orderly_stream toks = true -> (forall name attrs, List.In (TStart name attrs) toks -> harmless E name attrs) ->
  parse (E := E) fuel mode toks tm <> PPanic.
Proof. exact @calm_streams. Qed.
Print Assumptions C29_streams_partial.
(** For a document without <use>, whole or cut off anywhere, the harmless colours are enough. *)
Theorem C29_without_use_partial : forall (E : Env) (fuel : nat) (mode : errorMode) (ns : list node) (toks rest : list token) (tm : term),
  (forall name attrs, List.In (name, attrs) (flat_map elements ns) -> name <> "use"%string) -> harmless_doc E ns ->
  flat_map tokens ns = toks ++ rest -> parse (E := E) fuel mode toks tm <> PPanic.
Proof. exact @calm_documents. Qed.
Print Assumptions C29_without_use_partial.

(** ends that match no start, definitions inside definitions, shapes and a use inside a gradient *)
Definition C29_stream : list token :=
  [TStart "svg" []; TStart "defs" []; TStart "g" [mkAttr "id" "a"]; TStart "line" [mkAttr "x2" "3"]; TEnd "rect"; TEnd "g";
   TStart "defs" [mkAttr "id" "b"]; TStart "stop" [mkAttr "stop-color" "red"]; TEnd "title"; TEnd "svg"; TStart "linearGradient" [mkAttr "id" "q"];
   TStart "use" [mkAttr "href" "#a"]; TStart "line" [mkAttr "stroke" "url(#q)"; mkAttr "x2" "3"]; TEnd "mask"; TEnd "defs"; TStart "use" [mkAttr "href" "#a"];
   TEnd "linearGradient"; TStart "use" [mkAttr "href" "#b"]; TStart "g" []; TEnd "g"; TStart "title" []; TChar "x"]%string.
Lemma C29_stream_harmless : forall name attrs, List.In (TStart name attrs) C29_stream -> harmless D name attrs.
Proof.
  assert (B : forall s, List.In s ["red"; "url(#q)"]%string -> ~ bad_colour s).
  { intros s Hs [H|[(t & H & Hl)|(a & b & c & e & H & _)]]; repeat (destruct Hs as [<-|Hs]; [discriminate H || (injection H as <-; cbn in Hl; lia)|]); destruct Hs. }
  intros name attrs Hin. unfold C29_stream in Hin.
  repeat (destruct Hin as [Hin|Hin]; [try discriminate Hin; injection Hin as <- <-|]); try destruct Hin; (split; [|intros Hn; (discriminate Hn || (intros a v [<-|[]] [[_ ->]|[Ha _]]; [apply B; vm_compute; tauto|discriminate]))]).
  all: try (intros a k v [<-|[<-|[]]] || intros a k v [<-|[]] || intros a k v []).
  all: try (intros (key & val & rest & -> & -> & H) Hk; vm_compute in H).
  all: try (injection H as <- <- <-; vm_compute in Hk; destruct Hk as [Hk|Hk]; try discriminate Hk; apply B; vm_compute; tauto).
Qed.
Example C29_stream_example :
  orderly_stream C29_stream = true /\ (forall name attrs, List.In (TStart name attrs) C29_stream -> harmless D name attrs)
  /\ match parse (E := D) 6 StrictErrorMode C29_stream TermEOF with
     | PSvg s None _ => Some (length (sv_paths s), map fst (sv_defs s)) | _ => None end = Some (3, ["b"; "a"]%string).
Proof. split; [reflexivity|]. split; [exact C29_stream_harmless|]. vm_compute. reflexivity. Qed.
(** the definitions of [C29_stack], which make a <use> panic, do no harm without one *)
Definition C29_plain : list node :=
  [Elem "svg" [] [Elem "defs" [] [Elem "g" [mkAttr "id" "a"] [Elem "line" [mkAttr "id" "b"; mkAttr "x2" "3"] []]; Elem "defs" [] [Elem "g" [] []]; Elem "g" [] []];
     Elem "linearGradient" [mkAttr "id" "q"] [Elem "line" [mkAttr "x2" "3"] []]]]%string.
Example C29_plain_example :
  (forall name attrs, List.In (name, attrs) (flat_map elements C29_plain) -> name <> "use"%string) /\ harmless_doc D C29_plain
  /\ orderly_stream (flat_map tokens C29_plain ++ [TStart "use"%string []]) = false
  /\ match parse (E := D) 6 StrictErrorMode (firstn 18 (flat_map tokens C29_plain)) TermEOF with
     | PSvg s None _ => Some (length (sv_paths s), map fst (sv_defs s)) | _ => None end = Some (1, ["b"; "a"]%string).
Proof.
  split; [|split; [|split; [reflexivity|vm_compute; reflexivity]]].
  - intros name attrs Hin. cbn in Hin. repeat (destruct Hin as [Hin|Hin]; [injection Hin as <- <-; discriminate|]). destruct Hin.
  - intros name attrs Hin. cbn in Hin. repeat (destruct Hin as [Hin|Hin]; [injection Hin as <- <-|]); try destruct Hin; (split; [|intros Hn; discriminate Hn]).
    all: try (intros a k v [<-|[<-|[]]] || intros a k v [<-|[]] || intros a k v []).
    all: intros (key & val & rest & -> & -> & H) Hk; vm_compute in H; injection H as <- <- <-; vm_compute in Hk; destruct Hk as [Hk|Hk]; discriminate Hk.
Qed.
(** two ends without a start: the first takes the default style, the second finds nothing *)
Theorem C29_ends_refuted : forall mode,
  match parse (E := D) 6 mode [TStart "svg" []; TEnd "svg"; TEnd "svg"; TEnd "svg"]%string TermEOF with PPanic => true | _ => false end = true.
Proof. exact (fun mode => match mode with StrictErrorMode => eq_refl | WarnErrorMode => eq_refl | IgnoreErrorMode => eq_refl end). Qed.
Print Assumptions C29_ends_refuted.

(** * PropertiesEnd: termination and panics (C28, C29) *)
From Coq Require Import Floats.SpecFloat Lia.
From Verif Require Import ProofsEnd2 ExPath.
Local Open Scope go_scope.

(** C28.  [fuel] bounds the depth of <use> inside <use>, and the turns of the angle loop of rounded
    rectangles; all other loops of the model are bounded by their input.  For an orderly document in
    which no definition refers back to itself, a fuel of three more than the number of references
    inside <defs> is never exhausted: Parse ends.  This holds for the document and for every prefix of its
    tokens, followed by the end of the input or by an error of the decoder.
    Partial: references must be acyclic, and the document orderly (gradients contain only stops, a
    <defs> contains no <defs>). *)
Theorem C28_terminates_partial : forall (O : Oracles) (fuel : nat) (mode : errorMode) (ns : list node) (toks rest : list token) (tm : term),
  angles O -> forallb (orderly false) ns = true -> acyclic (flat_map doc_refs ns) ->
  flat_map tokens ns = toks ++ rest -> length (flat_map doc_refs ns) + 3 <= fuel ->
  parse (E := F64 O) fuel mode toks tm <> PNoFuel.
Proof. exact parse_ends_F64. Qed.
Print Assumptions C28_terminates_partial.
(** The same for any numbers for which [k] turns of the angle loop are enough. *)
Theorem C28_any_numbers_partial : forall (E : Env) (k fuel : nat) (mode : errorMode) (ns : list node) (toks rest : list token) (tm : term),
  (forall y1 x1 y2 x2 f, k <= f -> raise_angle (E := E) f (fatan2 E y1 x1) (fatan2 E y2 x2) <> NoFuel) ->
  forallb (orderly false) ns = true -> acyclic (flat_map doc_refs ns) ->
  flat_map tokens ns = toks ++ rest -> length (flat_map doc_refs ns) + k + 2 <= fuel ->
  parse (E := E) fuel mode toks tm <> PNoFuel.
Proof. exact @parse_ends. Qed.
Print Assumptions C28_any_numbers_partial.
(** an oracle for the examples: angles in steps of about a right angle *)
Definition demoA : Oracles := {|
  o_sin := o_sin demoO; o_cos := o_cos demoO; o_tan := o_tan demoO;
  o_atan2 := fun y x => if SFltb y (sf_of_Z 0) then sf_lit (-3) 2 else if SFltb x (sf_of_Z 0) then fpi D else sf_lit 1 2;
  o_isLetterU := o_isLetterU demoO; o_isNumberU := o_isNumberU demoO; o_toLowerU := o_toLowerU demoO; o_colorname := o_colorname demoO;
  o_int := amd64_int; o_i32 := amd64_i32; o_u32 := amd64_u32 |}.
Definition C28_doc : list node :=
  [Elem "svg" []
    [Elem "defs" []
       [Elem "rect" [mkAttr "id" "a"; mkAttr "width" "8"; mkAttr "height" "4"; mkAttr "rx" "2"] [];
        Elem "g" [mkAttr "id" "b"] [Elem "use" [mkAttr "href" "#a"] []; Elem "line" [mkAttr "x2" "3"] []]];
     Elem "defs" [] [Elem "use" [mkAttr "id" "c"; mkAttr "href" "#b"] []; Elem "use" [mkAttr "href" "#a"] []];
     Elem "use" [mkAttr "href" "#c"] []]]%string.
Example C28_example :
  angles demoA /\ forallb (orderly false) C28_doc = true /\ acyclic (flat_map doc_refs C28_doc)
  /\ flat_map doc_refs C28_doc = [("b", "#a"); ("c", "#b"); ("c", "#a")]%string
  /\ match parse (E := F64 demoA) 6 StrictErrorMode (flat_map tokens C28_doc) TermEOF with
     | PSvg s None _ => length (sv_paths s) | _ => 0 end = 1.
Proof.
  split; [|split; [reflexivity|split; [|split; [reflexivity|vm_compute; reflexivity]]]].
  - intros y x. right. change (fpi (F64 demoA)) with (fpi D). unfold demoA. cbn [o_atan2].
    destruct (SFltb y (sf_of_Z 0)); [vm_compute; auto|]. destruct (SFltb x (sf_of_Z 0)); vm_compute; auto.
  - change (flat_map doc_refs C28_doc) with [("b", "#a"); ("c", "#b"); ("c", "#a")]%string.
    set (rank := fun s => if String.eqb s "a" then 0 else if String.eqb s "b" then 1 else 2).
    assert (Hr : forall g x, leads [("b", "#a"); ("c", "#b"); ("c", "#a")]%string g x -> rank x < rank g).
    { assert (H1 : forall g x, List.In (g, String "#" x) [("b", "#a"); ("c", "#b"); ("c", "#a")]%string -> rank x < rank g).
      { intros g x [H|[H|[H|[]]]]; injection H as <- <-; cbn; lia. }
      induction 1 as [g x H|g x y H _ IH]; [auto|]. apply H1 in H. lia. }
    intros g H. apply Hr in H. lia.
Qed.
(** A <use> inside its own definition never ends: whatever the fuel, it is exhausted. *)
Definition loop_attrs : list attr := [mkAttr "id" "a"; mkAttr "href" "#a"]%string.
Definition C28_loop : list node :=
  [Elem "svg" [] [Elem "defs" [] [Elem "use" loop_attrs []]; Elem "use" loop_attrs []]]%string.
Lemma loop_push (c : cursor D) s r : c_stack c = s :: r -> pushStyle loop_attrs c = (c_set_stack (s :: s :: r) c, Ret tt).
Proof.
  intros H. unfold pushStyle, topStyle, bind, gets. rewrite H.
  assert (foldM stylePair s (stylePairs (E := D) loop_attrs) c = (c, Ret s)) as -> by reflexivity.
  unfold modify. rewrite H. reflexivity.
Qed.
Lemma loop_use f : forall (c : cursor D), c_stack c <> [] ->
  mget "a" (sv_defs (c_svg c)) = Some [mkDef "a" "use" loop_attrs] -> snd (useF f loop_attrs c) = NoFuel.
Proof.
  induction f as [|f IH]; intros c Hs Hd; [reflexivity|]. cbn [useF].
  unfold bind at 1. change (foldM (useAttr (E := D)) (EmptyString, fnum D 0, fnum D 0) loop_attrs c) with (c, Ret ("#a"%string, fnum D 0, fnum D 0)).
  cbv beta iota. unfold bind at 1, modify at 1. unfold deferred. set (c1 := c_set_pc _ c).
  change (String.eqb "#a" "") with false. change (negb (hasPrefix "#a" "#")) with false. cbv iota.
  unfold bind at 1, lift at 1. change (slice "#a" 1 (String.length "#a")) with (Ret "a"%string). cbv beta iota. unfold bind at 1, gets at 1.
  change (sv_defs (c_svg c1)) with (sv_defs (c_svg c)). rewrite Hd. cbn [useLoop d_tag d_attrs]. change (String.eqb "use" "endg") with false. change (String.eqb "use" "use") with true. cbv iota.
  destruct (c_stack c) as [|s r] eqn:Hst; [congruence|]. unfold bind at 1. rewrite (loop_push c1 s r) by exact Hst. cbv beta iota. unfold bind at 1.
  specialize (IH (c_set_stack (s :: s :: r) c1) ltac:(discriminate) Hd). destruct (useF f loop_attrs _) as [c2 o]. cbn in IH. subst o. reflexivity.
Qed.
Definition is_loop (d : definition) : bool :=
  String.eqb (d_id d) "a" && String.eqb (d_tag d) "use"
  && match d_attrs d with
     | [mkAttr n1 v1; mkAttr n2 v2] => String.eqb n1 "id" && String.eqb v1 "a" && String.eqb n2 "href" && String.eqb v2 "#a"
     | _ => false
     end.
Definition in_loop (r : cursor D * outcome unit) : bool :=
  match r with
  | (c, Ret _) => match c_stack c with [] => false | _ => true end && negb (c_inDefs c)
      && match mget "a" (sv_defs (c_svg c)) with Some [d] => is_loop d | _ => false end
  | _ => false
  end.
Definition loop_start : list token := [TStart "svg" []; TStart "defs" []; TStart "use" loop_attrs; TEnd "use"; TEnd "defs"]%string.
Lemma loop_prefix fuel mode : in_loop (mapM (stepToken fuel) loop_start (cursor0 mode)) = true.
Proof. destruct mode; vm_compute; reflexivity. Qed.
Lemma is_loop_eq d : is_loop d = true -> d = mkDef "a" "use" loop_attrs.
Proof.
  destruct d as [i t a]. unfold is_loop. cbn [d_id d_tag d_attrs]. destruct a as [|[n1 v1] [|[n2 v2] [|? ?]]]; rewrite ?andb_false_r; try discriminate.
  rewrite !andb_true_iff, !String.eqb_eq. intros ((-> & ->) & ((-> & ->) & ->) & ->). reflexivity.
Qed.
Lemma loop_forever fuel mode tm : parse (E := D) fuel mode (flat_map tokens C28_loop) tm = PNoFuel.
Proof.
  unfold parse. change (flat_map tokens C28_loop) with (loop_start ++ [TStart "use"%string loop_attrs; TEnd "use"%string; TEnd "svg"%string]).
  rewrite mapM_app. pose proof (loop_prefix fuel mode) as Hp. unfold bind at 1.
  destruct (mapM (stepToken fuel) loop_start (cursor0 mode)) as [c [[]|e| |]]; try discriminate. unfold in_loop in Hp. rewrite !andb_true_iff in Hp. destruct Hp as ((Hs & Hi) & Hd).
  apply negb_true_iff in Hi. destruct (mget "a" (sv_defs (c_svg c))) as [[|d [|? ?]]|] eqn:Hm; try discriminate. apply is_loop_eq in Hd. subst d.
  cbn [mapM stepToken]. destruct (c_stack c) as [|s r] eqn:Hst; [discriminate|]. unfold bind at 1 2. rewrite (loop_push c s r Hst). cbv beta iota.
  unfold readStartElement, bind at 1, gets. cbv zeta beta iota. cbn [c_inDefs c_set_stack]. rewrite Hi. cbn [andb].
  change (drawFuncs (E := D) fuel "use") with (Some (useF (E := D) fuel)). cbv iota. unfold bind at 1, attempt.
  pose proof (loop_use fuel (c_set_stack (s :: s :: r) c) ltac:(discriminate) Hm) as H. destruct (useF fuel loop_attrs _) as [c2 o]. cbn in H. subst o. reflexivity.
Qed.
Theorem C28_self_use_refuted : forall (fuel : nat) (mode : errorMode) (tm : term), parse (E := D) fuel mode (flat_map tokens C28_loop) tm = PNoFuel.
Proof. exact loop_forever. Qed.
Print Assumptions C28_self_use_refuted.

(** C29.  Parse does not panic on an orderly document in which no fill, stroke or stop-color has one of
    the values that make the colour parser panic (these are exactly described by C12), and in which no <g> of
    a <defs> contains an element with an id.  This holds for the document and for every prefix of its
    tokens, whatever the fuel and the error mode.
    Partial: the three conditions; the theorems named [refuted] below show that the last two are needed. *)
Theorem C29_no_panic_partial : forall (E : Env) (fuel : nat) (mode : errorMode) (ns : list node) (toks rest : list token) (tm : term),
  forallb (orderly false) ns = true -> forallb whole_defs ns = true -> harmless_doc E ns ->
  flat_map tokens ns = toks ++ rest -> parse (E := E) fuel mode toks tm <> PPanic.
Proof. exact @parse_calm. Qed.
Print Assumptions C29_no_panic_partial.
Definition C29_doc : list node :=
  [Misc; Elem "svg" [mkAttr "fill" "red"]
    [Elem "title" [] [Chars "t"]; Chars "x";
     Elem "defs" [mkAttr "style" "stroke:none; fill : #0f0"]
       [Elem "linearGradient" [mkAttr "id" "q"] [Elem "stop" [mkAttr "stop-color" "red"] []];
        Elem "g" [mkAttr "id" "b"] [Elem "line" [mkAttr "x2" "3"] []; Elem "use" [mkAttr "href" "#b"] []]];
     Elem "rect" [mkAttr "fill" "url(#q)"; mkAttr "stroke" "#12ff"; mkAttr "width" "q"] []; Elem "use" [mkAttr "href" "#b"] []]]%string.
Lemma C29_harmless : harmless_doc D C29_doc.
Proof.
  assert (B : forall s, List.In s ["red"; "none"; "#0f0"; "url(#q)"; "#12ff"]%string -> ~ bad_colour s).
  { intros s Hs [H|[(t & H & Hl)|(a & b & c & e & H & _)]]; repeat (destruct Hs as [<-|Hs]; [discriminate H || (injection H as <-; cbn in Hl; lia)|]); destruct Hs. }
  intros name attrs Hin. cbn in Hin.
  repeat (destruct Hin as [Hin|Hin]; [injection Hin as <- <-|]); try destruct Hin; (split; [|intros Hn; (discriminate Hn || (intros a v [<-|[]] [[_ ->]|[Ha _]]; [apply B; vm_compute; tauto|discriminate]))]).
  all: try (intros a k v [<-|[<-|[<-|[]]]] || intros a k v [<-|[<-|[]]] || intros a k v [<-|[]] || intros a k v []).
  all: try (intros (key & val & rest & -> & -> & H) Hk; vm_compute in H).
  all: try (injection H as <- <- <-; vm_compute in Hk; destruct Hk as [Hk|Hk]; try discriminate Hk; apply B; vm_compute; tauto).
  destruct H as (d & Hd & Hs). repeat (destruct Hd as [<-|Hd]; [vm_compute in Hs; injection Hs as <- <- <-; apply B; vm_compute; tauto|]). destruct Hd.
Qed.
Example C29_example :
  forallb (orderly false) C29_doc = true /\ forallb whole_defs C29_doc = true /\ harmless_doc D C29_doc
  /\ match parse (E := D) 6 IgnoreErrorMode (firstn 15 (flat_map tokens C29_doc)) TermEOF with PSvg _ None _ => true | _ => false end = true.
Proof. split; [reflexivity|]. split; [reflexivity|]. split; [exact C29_harmless|]. vm_compute. reflexivity. Qed.
(** an empty fill panics *)
Theorem C29_fill_refuted : forall mode,
  match parse (E := D) 6 mode (tokens (Elem "svg" [mkAttr "fill" ""] [])) TermEOF with PPanic => true | _ => false end = true.
Proof. exact (fun mode => match mode with StrictErrorMode => eq_refl | WarnErrorMode => eq_refl | IgnoreErrorMode => eq_refl end). Qed.
Print Assumptions C29_fill_refuted.
(** The end of a <g> belongs to the group of the last element with an id inside it.  Drawing that group
    pops one style too many; a document can empty the stack this way. *)
Definition C29_stack : list node :=
  [Elem "svg" []
    [Elem "defs" [] [Elem "g" [mkAttr "id" "a"] [Elem "line" [mkAttr "id" "b"; mkAttr "x2" "3"] []]];
     Elem "use" [mkAttr "href" "#b"] []; Elem "use" [mkAttr "href" "#b"] []; Elem "use" [mkAttr "href" "#b"] []]]%string.
Theorem C29_group_refuted : forall mode,
  match parse (E := D) 6 mode (flat_map tokens C29_stack) TermEOF with PPanic => true | _ => false end = true.
Proof. exact (fun mode => match mode with StrictErrorMode => eq_refl | WarnErrorMode => eq_refl | IgnoreErrorMode => eq_refl end). Qed.
Print Assumptions C29_group_refuted.

(** * PropertiesOrder: the order of attributes (C47) *)
From Verif Require Import ProofsOrder3 ExTree.
Local Open Scope go_scope.

(** C47.  Permuting the attributes of the elements of a document, inside definitions too, does not change
    the drawing, the masks, titles or sizes, as long as the attributes of an element are about different
    things ([apart]).  Partial: that restriction, and documents that give an error. *)
Theorem C47_order_partial : forall (E : Env) (fuel : nat) (mode : errorMode) (toks toks' : list token) (s : svg E) (log : list string),
  Forall2 reordered_token toks toks' -> parse fuel mode toks TermEOF = PSvg s None log ->
  exists s' log', parse fuel mode toks' TermEOF = PSvg s' None log' /\ same_svg s s' /\ (mode <> WarnErrorMode -> log' = log).
Proof. exact @attribute_order. Qed.
Print Assumptions C47_order_partial.

(** the parts an attribute is about, computed *)
Definition parts_b (a : attr) : list part :=
  if String.eqb (low_case (a_name a)) "style"
  then flat_map (fun kv => parts_named (a_name kv)) (flat_map (kv_of (E := D)) (split1 ";" (a_val a)))
  else parts_named (low_case (trimSpace (a_name a))).
Lemma touches_parts a p : touches a p -> List.In p (parts_b a).
Proof.
  intros (ds & k & v & Ha & Hi & Hp). unfold parts_b. destruct Ha as [n w ds Hn Ht|n key w w' Hn Pn Pv Cn Cv|n key w Hn Pn Cn Hk]; cbn [a_name a_val] in *.
  - rewrite Hn. cbn [String.eqb Ascii.eqb Bool.eqb]. rewrite <- (style_kvs (E := D) _ _ Ht) in Hi. apply in_map_iff in Hi as (kv & Hkv & Hi). apply in_flat_map. exists kv. split; [exact Hi|].
    destruct kv. injection Hkv as -> ->. exact Hp.
  - apply String.eqb_neq in Hn. rewrite Hn. destruct Hi as [Hi|[]]. injection Hi as <- <-. rewrite (padded_trim _ _ Pn). exact Hp.
  - destruct Hi.
Qed.
Definition share (l l' : list part) : bool := existsb (fun p => existsb (fun q => if part_eq_dec p q then true else false) l') l.
Definition apart_b (a b : attr) : bool :=
  negb (String.eqb (low_case (a_name a)) (low_case (a_name b)))
  && negb (String.eqb (a_name a) "r" && (String.eqb (a_name b) "rx" || String.eqb (a_name b) "ry"))
  && negb (String.eqb (a_name b) "r" && (String.eqb (a_name a) "rx" || String.eqb (a_name a) "ry"))
  && negb (share (parts_b a) (parts_b b)).
Lemma radii_b n n' : negb (String.eqb n "r" && (String.eqb n' "rx" || String.eqb n' "ry")) = true -> ~ both_radii n n'.
Proof. intros H [-> [->| ->]]; discriminate H. Qed.
Lemma apart_ok a b : apart_b a b = true -> apart a b.
Proof.
  unfold apart_b. intros H. apply andb_prop in H as [H H4]. apply andb_prop in H as [H H3]. apply andb_prop in H as [H1 H2].
  split; [apply String.eqb_neq, negb_true_iff, H1|]. split; [apply radii_b, H2|]. split; [apply radii_b, H3|].
  intros p [P1 P2]. apply touches_parts in P1, P2. apply negb_true_iff in H4. enough (share (parts_b a) (parts_b b) = true) by congruence.
  apply existsb_exists. exists p. split; [exact P1|]. apply existsb_exists. exists p. split; [exact P2|]. destruct (part_eq_dec p p); congruence.
Qed.
Fixpoint all_apart (l : list attr) : bool := match l with [] => true | a :: l => forallb (apart_b a) l && all_apart l end.
Lemma all_apart_ok l : all_apart l = true -> ForallOrdPairs apart l.
Proof.
  induction l as [|a l IH]; intros H; [constructor|]. cbn in H. apply andb_prop in H as [H1 H2]. constructor; [|auto].
  apply Forall_forall. intros b Hb. apply apart_ok. rewrite forallb_forall in H1. apply H1, Hb.
Qed.
(** attributes whose name has no white space around it, and that are not style attributes *)
Definition plain_attr (a : attr) : bool :=
  tidy (a_name a) && lacks ":" (a_name a) && negb (String.eqb (low_case (a_name a)) "style")
  && (tidy (a_val a) && lacks ":" (a_val a) || match parts_named (low_case (a_name a)) with [] => true | _ => false end).
Lemma plain_ok a : plain_attr a = true -> readable a.
Proof.
  destruct a as [n v]. unfold plain_attr. cbn [a_name a_val]. intros H. apply andb_prop in H as [H H4]. apply andb_prop in H as [H H3]. apply andb_prop in H as [H1 H2].
  apply negb_true_iff, String.eqb_neq in H3. apply orb_prop in H4 as [H4|H4].
  - apply andb_prop in H4 as [H4 H5]. eexists. apply (ad_pres n n v v); auto using tidy_padded.
  - exists []. apply (ad_other n n v); auto using tidy_padded. destruct (parts_named (low_case n)); [reflexivity|discriminate].
Qed.
Definition C47_doc (b : bool) : list token :=
  let sw (l : list attr) := if b then rev l else l in
  [TStart "svg" (sw [mkAttr "viewBox" "0 0 10 10"; mkAttr "width" "20"; mkAttr "fill" "#102030"; mkAttr "stroke" "none"]);
   TStart "defs" [];
   TStart "linearGradient" (sw [mkAttr "id" "q"; mkAttr "x2" "50%"; mkAttr "gradientUnits" "userSpaceOnUse"; mkAttr "gradientTransform" "scale(2 2)"]);
   TStart "stop" (sw [mkAttr "offset" "1"; mkAttr "stop-color" "#405060"]); TEnd "stop"; TEnd "linearGradient";
   TStart "rect" (sw [mkAttr "id" "r"; mkAttr "fill" "url(#q)"; mkAttr "transform" "translate(1 2)"; mkAttr "width" "3"; mkAttr "height" "50%"]); TEnd "rect"; TEnd "defs";
   TStart "use" (sw [mkAttr "href" "#r"; mkAttr "x" "1"; mkAttr "opacity" "0.5"]); TEnd "use";
   TStart "path" (sw [mkAttr "d" "M1 2L3 4"; mkAttr "style" "stroke-width:2"; mkAttr "mask" "url(#m)"]); TEnd "path"; TEnd "svg"]%string.
Example C47_example :
  Forall2 reordered_token (C47_doc false) (C47_doc true)
  /\ match parse (E := D) 3 StrictErrorMode (C47_doc false) TermEOF with
     | PSvg s None [] => map sp_path (sv_paths s)
     | _ => [] end = [[OpMoveTo (64, 0); OpLineTo (256, 0); OpLineTo (256, 320); OpLineTo (64, 320); OpClose]; [OpMoveTo (64, 128); OpLineTo (192, 256)]]%Z.
Proof.
  split; [|vm_compute; reflexivity]. unfold C47_doc. cbv zeta iota.
  assert (Hs : readable (mkAttr "style" "stroke-width:2")).
  { exists [("stroke-width", "2")]%string. apply ad_style; [reflexivity|]. apply stt_last; [reflexivity|]. apply (dt_decl "stroke-width" "2" "stroke-width" "2"); try reflexivity; apply tidy_padded; reflexivity. }
  repeat (constructor; [first [apply ro_same | apply ro_start; split; [apply Permutation_rev|split;
    [repeat (constructor; [first [exact Hs|apply plain_ok; vm_compute; reflexivity]|]); constructor|apply all_apart_ok; vm_compute; reflexivity]]]|]). constructor.
Qed.

(** In XML the order of attributes is not significant, but for the parser it is.  [shuffled]: the elements have the
    same attributes, with different names, in any order. *)
Definition shuffled (t t' : token) : Prop := t = t' \/ exists n l l', t = TStart n l /\ t' = TStart n l' /\ Permutation l l' /\ NoDup (map a_name l).
Definition order_free : Prop := forall (E : Env) (fuel : nat) (toks toks' : list token) (s : svg E) (log : list string),
  Forall2 shuffled toks toks' -> parse fuel StrictErrorMode toks TermEOF = PSvg s None log ->
  exists s' log', parse fuel StrictErrorMode toks' TermEOF = PSvg s' None log' /\ sv_paths s' = sv_paths s.
Definition look {A} (f : svgPath D -> A) (r : presult D) : option (list A) := match r with PSvg s None [] => Some (map f (sv_paths s)) | _ => None end.
Lemma order_refuted {A} (f : svgPath D -> A) name (l l' : list attr) (x y : list A) : Permutation l l' -> NoDup (map a_name l) ->
  look f (parse 3 StrictErrorMode [TStart name l; TEnd name] TermEOF) = Some x ->
  look f (parse 3 StrictErrorMode [TStart name l'; TEnd name] TermEOF) = Some y -> x <> y -> ~ order_free.
Proof.
  intros Hp Hn H1 H2 Hxy K. unfold look in *.
  destruct (parse 3 StrictErrorMode [TStart name l; TEnd name] TermEOF) as [|s [e|] [|? ?]| |] eqn:R1; try discriminate. injection H1 as <-.
  destruct (K D 3 [TStart name l; TEnd name] [TStart name l'; TEnd name] s []) as (s' & log' & K1 & K2).
  - constructor; [right; exists name, l, l'; auto|constructor; [left; reflexivity|constructor]].
  - exact R1.
  - rewrite K1 in H2. destruct log'; [|discriminate]. injection H2 as <-. rewrite K2 in Hxy. contradiction.
Qed.
(** fill="red" does not lose against style="fill:blue" when it comes later *)
Definition C47_fill_of (p : svgPath D) : option (Z * Z * Z) := match st_filler (sp_style p) with Some (PPlain r g b a) => Some (r, g, b) | _ => None end.
Theorem C47_style_refuted : ~ order_free
  /\ look C47_fill_of (parse 3 StrictErrorMode [TStart "path" [mkAttr "fill" "#010203"; mkAttr "style" "fill:#040506"; mkAttr "d" "M1 2L3 4"]; TEnd "path"]%string TermEOF) = Some [Some (4, 5, 6)%Z]
  /\ look C47_fill_of (parse 3 StrictErrorMode [TStart "path" [mkAttr "style" "fill:#040506"; mkAttr "fill" "#010203"; mkAttr "d" "M1 2L3 4"]; TEnd "path"]%string TermEOF) = Some [Some (1, 2, 3)%Z].
Proof.
  assert (H : look C47_fill_of (parse 3 StrictErrorMode [TStart "path" [mkAttr "fill" "#010203"; mkAttr "style" "fill:#040506"; mkAttr "d" "M1 2L3 4"]; TEnd "path"]%string TermEOF) = Some [Some (4, 5, 6)%Z]
    /\ look C47_fill_of (parse 3 StrictErrorMode [TStart "path" [mkAttr "style" "fill:#040506"; mkAttr "fill" "#010203"; mkAttr "d" "M1 2L3 4"]; TEnd "path"]%string TermEOF) = Some [Some (1, 2, 3)%Z])
    by (vm_compute; auto).
  destruct H as [H1 H2]. split; [|auto]. refine (order_refuted C47_fill_of "path" _ _ _ _ _ _ H1 H2 _); [apply perm_swap| |discriminate].
  repeat constructor; cbn; intuition discriminate.
Qed.
Print Assumptions C47_style_refuted.
(** a circle with r and rx *)
Theorem C47_radius_refuted : ~ order_free
  /\ look (fun p => hd OpClose (sp_path p)) (parse 3 StrictErrorMode [TStart "circle" [mkAttr "r" "2"; mkAttr "rx" "1"]; TEnd "circle"]%string TermEOF) = Some [OpMoveTo (64, 0)%Z]
  /\ look (fun p => hd OpClose (sp_path p)) (parse 3 StrictErrorMode [TStart "circle" [mkAttr "rx" "1"; mkAttr "r" "2"]; TEnd "circle"]%string TermEOF) = Some [OpMoveTo (128, 0)%Z].
Proof.
  assert (H : look (fun p => hd OpClose (sp_path p)) (parse 3 StrictErrorMode [TStart "circle" [mkAttr "r" "2"; mkAttr "rx" "1"]; TEnd "circle"]%string TermEOF) = Some [OpMoveTo (64, 0)%Z]
    /\ look (fun p => hd OpClose (sp_path p)) (parse 3 StrictErrorMode [TStart "circle" [mkAttr "rx" "1"; mkAttr "r" "2"]; TEnd "circle"]%string TermEOF) = Some [OpMoveTo (128, 0)%Z])
    by (vm_compute; auto).
  destruct H as [H1 H2]. split; [|auto]. refine (order_refuted (fun p => hd OpClose (sp_path p)) "circle" _ _ _ _ _ _ H1 H2 _); [apply perm_swap| |discriminate].
  repeat constructor; cbn; intuition discriminate.
Qed.
Print Assumptions C47_radius_refuted.

(** * PropertiesEdit: shapes replaced, deleted and swapped (C53) *)
From Verif Require Import ProofsEdit ExTree.
Local Open Scope go_scope.

(** C53.  Each shape of a drawing can be edited on its own.  Let [pre] be the part of a document before a
    position outside definitions, gradients and masks, and replace the elements [ns] that follow (shapes,
    groups of shapes, text, unknown elements; no masks) by any other such elements [ns'] that can be read
    there.  Then, whatever follows, the parser does the same, except that the paths drawn by [ns] are
    replaced by those drawn by [ns']: it returns the same error or none, all paths before and after stay
    the same, and so do the titles, descriptions, masks, definitions and gradients.  There is no more than
    one path for each element. *)
Theorem C53_replaced : forall (E : Env) (fuel : nat) (mode : errorMode) (u : bool) (pre : list token) (ns ns' : list node) (s1 s2 : svg E) (l1 l2 : list string),
  tidy_at u pre -> (exists name attrs, List.In (TStart name attrs) pre) -> Forall pointed pre -> Forall drawing ns -> Forall drawing ns' ->
  parse fuel mode (pre ++ flat_map tokens ns) TermEOF = PSvg s1 None l1 -> parse fuel mode (pre ++ flat_map tokens ns') TermEOF = PSvg s2 None l2 ->
  exists s0 l0 x y, parse fuel mode pre TermEOF = PSvg s0 None l0
  /\ sv_paths s1 = sv_paths s0 ++ x /\ sv_paths s2 = sv_paths s0 ++ y
  /\ List.length x <= list_sum (map elements ns) /\ List.length y <= list_sum (map elements ns')
  /\ forall post tm, Forall pointed post ->
     replaced_result (sv_paths s0) x y (parse fuel mode (pre ++ flat_map tokens ns ++ post) tm) (parse fuel mode (pre ++ flat_map tokens ns' ++ post) tm).
Proof. exact @shapes_replaced. Qed.
Print Assumptions C53_replaced.

(** Deleting shapes deletes their paths and nothing else. *)
Theorem C53_deleted : forall (E : Env) (fuel : nat) (mode : errorMode) (u : bool) (pre : list token) (ns : list node) (s1 : svg E) (l1 : list string),
  tidy_at u pre -> (exists name attrs, List.In (TStart name attrs) pre) -> Forall pointed pre -> Forall drawing ns ->
  parse fuel mode (pre ++ flat_map tokens ns) TermEOF = PSvg s1 None l1 ->
  exists a x, sv_paths s1 = a ++ x /\ List.length x <= list_sum (map elements ns)
  /\ forall post tm, Forall pointed post -> replaced_result a x [] (parse fuel mode (pre ++ flat_map tokens ns ++ post) tm) (parse fuel mode (pre ++ post) tm).
Proof. exact @shapes_deleted. Qed.
Print Assumptions C53_deleted.

(** Swapping neighbours swaps their paths and changes nothing else. *)
Theorem C53_swapped : forall (E : Env) (fuel : nat) (mode : errorMode) (u : bool) (pre : list token) (ns ns' : list node) (s1 : svg E) (l1 : list string),
  tidy_at u pre -> (exists name attrs, List.In (TStart name attrs) pre) -> Forall pointed pre -> Forall drawing ns -> Forall drawing ns' ->
  parse fuel mode (pre ++ flat_map tokens ns ++ flat_map tokens ns') TermEOF = PSvg s1 None l1 ->
  exists a x y, sv_paths s1 = a ++ x ++ y /\ List.length x <= list_sum (map elements ns) /\ List.length y <= list_sum (map elements ns')
  /\ forall post tm, Forall pointed post ->
     replaced_result a (x ++ y) (y ++ x) (parse fuel mode (pre ++ flat_map tokens ns ++ flat_map tokens ns' ++ post) tm)
                                         (parse fuel mode (pre ++ flat_map tokens ns' ++ flat_map tokens ns ++ post) tm).
Proof. exact @shapes_swapped. Qed.
Print Assumptions C53_swapped.

(** a document with a definition, a path and a use of the definition after the shapes *)
Definition C53_pre : list token :=
  [TStart "svg" []]%string ++ flat_map tokens [Elem "defs" [] [Elem "polyline" [mkAttr "id" "p"; mkAttr "points" "0,0 1,0 1,1"] []]; Elem "line" [mkAttr "x2" "5"] []]%string
  ++ [TStart "g" [mkAttr "fill" "#010203"]]%string.
Definition C53_one : list node := [Elem "path" [mkAttr "d" "M1,1L2,2"] []; Chars "x"]%string.
Definition C53_two : list node := [Elem "g" [mkAttr "transform" "translate(1,2)"] [Elem "line" [mkAttr "x2" "1"] []; Elem "line" [mkAttr "x2" "2"] []]]%string.
Definition C53_post : list token := [TEnd "g"]%string ++ flat_map tokens [Elem "use" [mkAttr "href" "#p"] []; Elem "path" [mkAttr "d" "l1,0"] []]%string ++ [TEnd "svg"]%string.
Definition C53_seen (r : presult D) := match r with PSvg s None [] => map (fun p => sp_path p) (sv_paths s) | _ => [] end.
Lemma C53_unmasked l ds : attrs_decls l ds -> Forall (fun d => fst d <> "mask"%string) ds -> unmasked l.
Proof. intros H1 H2. exists ds. auto. Qed.
Lemma C53_attr n v : ExTree.tidy n && lacks ":" n && ExTree.tidy v && lacks ":" v && negb (String.eqb (low_case n) "style") = true -> attr_decls (mkAttr n v) [(low_case n, v)].
Proof.
  rewrite !andb_true_iff, negb_true_iff, String.eqb_neq. intros ((((H1 & H2) & H3) & H4) & H5). apply ad_pres; auto using tidy_padded.
Qed.
Lemma C53_single n v : ExTree.tidy n && lacks ":" n && ExTree.tidy v && lacks ":" v && negb (String.eqb (low_case n) "style") && negb (String.eqb (low_case n) "mask") = true -> unmasked [mkAttr n v].
Proof.
  rewrite andb_true_iff. intros [H1 H2]. rewrite negb_true_iff, String.eqb_neq in H2. apply (C53_unmasked _ [(low_case n, v)]); [|repeat constructor; exact H2].
  apply (ads_cons _ [(low_case n, v)] [] []); [apply C53_attr, H1|constructor].
Qed.
Example C53_example :
  tidy_at true C53_pre /\ Forall pointed C53_pre /\ Forall pointed C53_post /\ Forall drawing C53_one /\ Forall drawing C53_two
  /\ C53_seen (parse 3 StrictErrorMode (C53_pre ++ flat_map tokens C53_one ++ C53_post) TermEOF)
     = [[OpMoveTo (0, 0); OpLineTo (320, 0)]; [OpMoveTo (64, 64); OpLineTo (128, 128)];
        [OpMoveTo (0, 0); OpLineTo (64, 0); OpLineTo (64, 64)]; [OpLineTo (64, 0)]]%Z
  /\ C53_seen (parse 3 StrictErrorMode (C53_pre ++ flat_map tokens C53_two ++ C53_post) TermEOF)
     = [[OpMoveTo (0, 0); OpLineTo (320, 0)]; [OpMoveTo (0, 0); OpLineTo (64, 0)]; [OpMoveTo (0, 0); OpLineTo (128, 0)];
        [OpMoveTo (0, 0); OpLineTo (64, 0); OpLineTo (64, 64)]; [OpLineTo (64, 0)]]%Z.
Proof.
  assert (P : forall l, forallb (fun t => match t with TStart n l => negb (String.eqb n "polyline" || String.eqb n "polygon") || has_attr "points" l | _ => true end) l = true -> Forall pointed l).
  { intros l H. apply Forall_forall. intros t Ht. rewrite forallb_forall in H. specialize (H t Ht). destruct t as [n a|n|s|]; try exact I.
    intros [->| ->]; exact H. }
  split; [|split; [|split; [|split; [|split; [|split]]]]]; [|apply P; reflexivity|apply P; reflexivity| | |vm_compute; reflexivity|vm_compute; reflexivity].
  - unfold C53_pre. rewrite app_assoc. apply (ta_into true); try reflexivity; [|discriminate].
    apply (ta_nodes true [TStart "svg" []]%string); [|reflexivity]. apply (ta_into true [] "svg"); try reflexivity; [constructor|discriminate].
  - repeat constructor.
    + intros K. cbn in K. intuition discriminate.
    + intros [K|K]; discriminate.
    + apply C53_single; reflexivity.
  - repeat constructor; try (intros K; cbn in K; intuition discriminate); try (intros [K|K]; discriminate); apply C53_single; reflexivity.
Qed.

(** Not so for a polyline without points after the edited shapes: it draws the numbers that were read
    last, here those of the deleted polygon. *)
Definition C53_bare (ns : list node) : list token := [TStart "svg" []]%string ++ flat_map tokens ns ++ flat_map tokens [Elem "polyline" [] []]%string ++ [TEnd "svg"]%string.
Theorem C53_points_refuted :
  C53_seen (parse 3 StrictErrorMode (C53_bare [Elem "polygon" [mkAttr "points" "0,0 1,0 1,1"] []]%string) TermEOF)
  = [[OpMoveTo (0, 0); OpLineTo (64, 0); OpLineTo (64, 64); OpClose]; [OpMoveTo (0, 0); OpLineTo (64, 0); OpLineTo (64, 64)]]%Z
  /\ C53_seen (parse 3 StrictErrorMode (C53_bare []) TermEOF) = [].
Proof. split; vm_compute; reflexivity. Qed.
Print Assumptions C53_points_refuted.

(** Not so for shapes with masks: inside three groups with masks, a shape with a mask replaces the mask of
    the shape before it, so deleting it changes the other one. *)
Definition C53_masked (ns : list node) : list token :=
  tokens (Elem "svg" [] [Elem "g" [mkAttr "mask" "url(#a)"] [Elem "g" [mkAttr "mask" "url(#b)"] [Elem "g" [mkAttr "mask" "url(#c)"]
    (Elem "line" [mkAttr "x2" "1"; mkAttr "mask" "url(#d)"] [] :: ns)]]])%string.
Definition C53_first (r : presult D) := match r with PSvg s None [] => map (fun p => slice_read (sv_mheap s) (st_masks (sp_style p))) (firstn 1 (sv_paths s)) | _ => [] end.
Theorem C53_masks_refuted :
  C53_first (parse 3 StrictErrorMode (C53_masked [Elem "line" [mkAttr "x2" "2"; mkAttr "mask" "url(#e)"] []]%string) TermEOF) = [["a"; "b"; "c"; "e"]]%string
  /\ C53_first (parse 3 StrictErrorMode (C53_masked []) TermEOF) = [["a"; "b"; "c"; "d"]]%string.
Proof. split; vm_compute; reflexivity. Qed.
Print Assumptions C53_masks_refuted.

(** * PropertiesMatrix: C17 (matrix algebra) and C18 (transform attributes), exact arithmetic *)
From Coq Require Import Reals Lra.
From Verif Require Import ProofsMatrix.
Local Open Scope R_scope.

(** an interpretation of decimal texts for the examples *)
Definition demoR : ROracles := {|
  r_fmt := fun _ => EmptyString;
  r_parse := fun s => if String.eqb s "2" then Some 2 else if String.eqb s "3" then Some 3 else if String.eqb s "90" then Some 90 else None;
  r_f32 := IZR; r_isLetterU := fun _ => false; r_isNumberU := fun _ => false; r_toLowerU := fun s => s;
  r_colorname := fun _ => None; r_growcap := fun n => n |}.
Notation K := (RealEnv demoR).
Notation mkK := (mkM (E := K)).
Definition plain_num s := mkNum NoSign s None None.

(** ** C17: matrix algebra *)
(** Transform is the affine map of the matrix, Identity maps every point to itself and is neutral for
    Mult; a matrix is determined by its map. *)
Theorem C17_identity : forall (O : ROracles),
  (forall (m : matrix (RealEnv O)) x y, mTransform m x y = maps m (x, y))
  /\ (forall p, maps (O := O) identity p = p)
  /\ (forall m : matrix (RealEnv O), mMult m identity = m /\ mMult identity m = m)
  /\ (forall a b : matrix (RealEnv O), (forall p, maps a p = maps b p) -> a = b).
Proof. exact (fun O => conj transform_maps (conj identity_maps (conj mult_identity matrix_ext))). Qed.
Print Assumptions C17_identity.
(** Invert undoes the map whenever the determinant is not zero *)
Theorem C17_inverse : forall (O : ROracles) (m : matrix (RealEnv O)), det m <> 0 ->
  (forall p, maps (mInvert m) (maps m p) = p) /\ (forall p, maps m (maps (mInvert m) p) = p).
Proof. exact (fun O m H => conj (fun p => proj1 (invert_maps m p H)) (fun p => proj2 (invert_maps m p H))). Qed.
Print Assumptions C17_inverse.
Example C17_inverse_example : det (mkK 2 1 0 3 5 7) <> 0 /\ maps (mInvert (mkK 2 1 0 3 5 7)) (9, 18) = (2, 3).
Proof.
  assert (Hd : det (mkK 2 1 0 3 5 7) <> 0) by (unfold det; cbn; lra). split; [exact Hd|].
  destruct (C17_inverse demoR (mkK 2 1 0 3 5 7) Hd) as [H _]. specialize (H (2, 3)). refine (eq_trans _ H). f_equal.
  unfold maps. cbn. f_equal; lra.
Qed.
(** TransformVector maps the difference of two points to the difference of their images: translations do not move it *)
Theorem C17_vector : forall (O : ROracles) (m : matrix (RealEnv O)) (p q : R * R),
  mTransformVector m (fst q - fst p) (snd q - snd p) = (fst (maps m q) - fst (maps m p), snd (maps m q) - snd (maps m p)).
Proof. intros O m [px py] [qx qy]. unfold mTransformVector, maps. cbn. f_equal; lra. Qed.
Print Assumptions C17_vector.
Example C17_vector_example : mTransformVector (mkK 2 1 0 3 5 7) 1 1 = (2, 4) /\ maps (mkK 2 1 0 3 5 7) (0, 0) = (5, 7).
Proof. unfold maps, mTransformVector. cbn. split; f_equal; lra. Qed.
(** a.Mult(b) maps as a after b exactly when a has no translation in a coordinate which b scales
    (missing: the other matrices, for which it is false) *)
Theorem C17_composition_partial : forall (O : ROracles) (a b : matrix (RealEnv O)),
  (forall p, maps (mMult a b) p = maps a (maps b p)) <-> mE a * (mA b - 1) = 0 /\ mF a * (mD b - 1) = 0.
Proof. exact (fun O => mult_maps). Qed.
Print Assumptions C17_composition_partial.
Example C17_composition_example : let a := mkK 0 1 (-1) 0 0 0 in let b := mkK 2 0 0 3 4 5 in
  mE a * (mA b - 1) = 0 /\ mF a * (mD b - 1) = 0 /\ maps (mMult a b) (1, 1) = (-8, 6).
Proof. cbn. unfold maps. cbn. repeat split; try lra. f_equal; lra. Qed.
(** in general it is false: translate(1,0).Mult(scale(2)) doubles the translation *)
Theorem C17_composition_refuted : forall O, exists (a b : matrix (RealEnv O)) p,
  maps (mMult a b) p <> maps a (maps b p).
Proof. exact (fun O => mult_wrong). Qed.
Print Assumptions C17_composition_refuted.

(** ** C18: transform attributes *)
(** The declaration transform stores the matrix which first applies the functions from right to left
    and then the transform of the parent, when the list consists of translations and scalings that
    commute with the parent's transform followed by at most one other function which does not scale
    its translation.  Under the identity: any list of translate(x, y) and scale, then at most one
    rotate(a), skewX, skewY or matrix.  Missing: the other lists and parents, for which it is false
    (see the equivalences and refutations below). *)
Theorem C18_list_partial : forall (O : ROracles) v fs (st : style (RealEnv O)) (c : cursor (RealEnv O)) par rest,
  transform_text (RealEnv O) v fs -> c_stack c = par :: rest -> orderly_list (st_transform par) fs ->
  exists c' m, readStyleAttr st "transform" v c = (c', Ret (put_part Transform m st)) /\ same_but_points c c'
  /\ forall p, maps m p = maps (st_transform par) (moves_list fs p).
Proof. exact (fun O => transform_reads). Qed.
Print Assumptions C18_list_partial.
Example C18_list_example : forall (c : cursor K) par rest, c_stack c = par :: rest -> st_transform par = identity ->
  let fs := [Translate K 2 3; Scale K 2 2; Rotate K 90] in
  transform_text K "translate(2 3) scale(2)Rotate (90)" fs /\ orderly_list (st_transform par) fs /\ moves_list fs (3, 0) = (2, 9).
Proof.
  intros c par rest Hc Hp fs.
  split; [|split].
  - apply (tt_cons K "" "translate" "" "2 3" [2; 3] _ " scale(2)Rotate (90)"); try reflexivity; try discriminate.
    { split; reflexivity. }
    { exists [(""%string, plain_num "2"); (" "%string, plain_num "3")], ""%string. repeat split; try reflexivity. unfold num_value. cbn. repeat f_equal; lra. }
    apply (tt_cons K " " "scale" "" "2" [2] _ "Rotate (90)"); try reflexivity; try discriminate.
    { split; [reflexivity|]. right. auto. }
    { exists [(""%string, plain_num "2")], ""%string. repeat split; try reflexivity. unfold num_value. cbn. repeat f_equal; lra. }
    apply (tt_cons K "" "Rotate" " " "90" [90] _ ""); try reflexivity; try discriminate.
    { split; reflexivity. }
    { exists [(""%string, plain_num "90")], ""%string. repeat split; try reflexivity. unfold num_value. cbn. repeat f_equal; lra. }
    apply tt_nil. reflexivity.
  - exists [Translate K 2 3; Scale K 2 2], [Rotate K 90]. split; [reflexivity|]. split; [repeat constructor|]. rewrite Hp. split.
    + intros p. now rewrite !identity_maps.
    + cbn [linear_entries]. unfold identity. rewrite !fnum_real. cbn. lra.
  - subst fs. unfold moves_list, moves, turn. cbn. replace (rad 90) with (PI / 2) by (unfold rad; lra). rewrite sin_PI2, cos_PI2. f_equal; lra.
Qed.
(** A single function under any parent: exactly when it is composed correctly. *)
Theorem C18_single_partial : forall (O : ROracles) (par : matrix (RealEnv O)) (f : tfun (RealEnv O)),
  (match f with RotateAt _ _ _ _ => False | _ => True end) ->
  ((forall p, maps (tfun_apply _ par f) p = maps par (moves f p)) <->
   match f with
   | Translate _ x y => mA par * x + mC par * y = x /\ mB par * x + mD par * y = y
   | Scale _ x y => mB par * (x - y) = 0 /\ mC par * (x - y) = 0 /\ mE par * (x - 1) = 0 /\ mF par * (y - 1) = 0
   | Rotate _ a => mE par * (cos (rad a) - 1) = 0 /\ mF par * (cos (rad a) - 1) = 0
   | MatrixFn _ m => mE par * (mA m - 1) = 0 /\ mF par * (mD m - 1) = 0
   | _ => True
   end).
Proof. exact (fun O => single_iff). Qed.
Print Assumptions C18_single_partial.
(** skewing is right under every parent, rotation under parents without translation *)
Example C18_single_example : forall p,
  maps (tfun_apply K (mkK 2 0 0 3 4 5) (SkewX K 90)) p = maps (mkK 2 0 0 3 4 5) (moves (SkewX K 90) p)
  /\ maps (tfun_apply K (mkK 2 0 0 3 0 0) (Rotate K 90)) p = maps (mkK 2 0 0 3 0 0) (moves (Rotate K 90) p).
Proof.
  intros p. split; [apply (C18_single_partial demoR (mkK 2 0 0 3 4 5) (SkewX K 90) I); exact I|].
  apply (C18_single_partial demoR (mkK 2 0 0 3 0 0) (Rotate K 90) I). cbn. lra.
Qed.
(** refuted: a translation inside a scaled group is not scaled *)
Theorem C18_nested_refuted : forall O, exists (par : matrix (RealEnv O)) f p, maps (tfun_apply _ par f) p <> maps par (moves f p).
Proof. exact (fun O => nested_wrong). Qed.
Print Assumptions C18_nested_refuted.
(** refuted: rotate(a, x, y) under the identity is right only if the centre is the origin or the
    rotation is trivial *)
Theorem C18_rotate_about_refuted : forall (O : ROracles) a x y,
  (forall p, maps (tfun_apply _ identity (RotateAt _ a x y)) p = moves (O := O) (RotateAt _ a x y) p)
  <-> (x = 0 /\ y = 0) \/ cos (rad a) = 1.
Proof. exact (fun O => rotate_at_iff). Qed.
Print Assumptions C18_rotate_about_refuted.
(** refuted: two functions of the kinds rotate, skewX, skewY and matrix (the second fixing the origin)
    are applied from left to right, and that is not the same map *)
Theorem C18_order_refuted : forall (O : ROracles),
  (forall (f g : tfun (RealEnv O)) a d b e,
    linear_entries f = Some (a, d) -> linear_entries g = Some (b, e) -> moves g (0, 0) = (0, 0) ->
    forall p, maps (fold_left (tfun_apply _) (rev [f; g]) identity) p = moves g (moves f p))
  /\ exists (fs : list (tfun (RealEnv O))) p, maps (fold_left (tfun_apply _) (rev fs) identity) p <> moves_list fs p.
Proof. exact (fun O => conj reversed reversed_wrong). Qed.
Print Assumptions C18_order_refuted.
(** refuted: translate(x) moves by x in both directions (SVG: horizontally only) *)
Theorem C18_translate_one_refuted : forall (O : ROracles) (m : matrix (RealEnv O)) x p,
  exists m', readTransformAttr m "translate" [x] = Ret m' /\ maps m' p = (fst (maps m p) + x, snd (maps m p) + x).
Proof. exact (fun O => translate_one). Qed.
Print Assumptions C18_translate_one_refuted.

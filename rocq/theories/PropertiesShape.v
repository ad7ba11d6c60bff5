(** * Properties of the basic shapes and of the grid *)
From Coq Require Import Reals Floats.SpecFloat.
From Verif Require Import SpecDoc ProofsShape ProofsF64 ProofsFlocq ExPath ExShape.

(** C21: a line is a move and a line *)
Theorem C21_line : forall (E : Env) (fuel : nat) (attrs : list attr) (x1 y1 x2 y2 : F E) (c : cursor E),
  let vb := sv_viewBox (c_svg c) in
  pc_path (c_pc c) = [] ->
  length_attr vb OfWidth "x1" attrs x1 -> length_attr vb OfHeight "y1" attrs y1 ->
  length_attr vb OfWidth "x2" attrs x2 -> length_attr vb OfHeight "y2" attrs y2 ->
  element_draws fuel "line" attrs c [OpMoveTo (dot E (offset c) (x1, y1)); OpLineTo (dot E (offset c) (x2, y2))].
Proof. exact @line_element. Qed.
Print Assumptions C21_line.

(** C21: a polyline of three or more points is a move and a line per further point, a polygon the same, closed.
    Missing from the full claim: shapes of two points, see [C21_two_points_refuted]. *)
Theorem C21_polylines_partial : forall (E : Env) (fuel : nat) (attrs : list attr) (s : string) (p : point E) (ps : list (point E)) (c : cursor E),
  pc_path (c_pc c) = [] ->
  attr_once "points" attrs s -> spells_numbers E s (flat_map (p1 E) (p :: ps)) -> 2 <= length ps ->
  let outline := OpMoveTo (dot E (offset c) p) :: map (fun q => OpLineTo (dot E (offset c) q)) ps in
  element_draws fuel "polyline" attrs c outline /\ element_draws fuel "polygon" attrs c (outline ++ [OpClose]).
Proof. exact @poly_elements. Qed.
Print Assumptions C21_polylines_partial.

(** C21 is false for two points: nothing is drawn, whatever they are *)
Theorem C21_two_points_refuted : forall (E : Env) (fuel : nat) (attrs : list attr) (s : string) (ps : list (point E)) (c : cursor E),
  pc_path (c_pc c) = [] ->
  attr_once "points" attrs s -> spells_numbers E s (flat_map (p1 E) ps) -> length ps <= 2 ->
  element_draws fuel "polyline" attrs c [] /\ element_draws fuel "polygon" attrs c [].
Proof. exact @poly_two. Qed.
Print Assumptions C21_two_points_refuted.

(** C21: an odd number of coordinates is an error *)
Theorem C21_odd : forall (E : Env) (fuel : nat) (attrs : list attr) (s : string) (vs : list (F E)) (c : cursor E),
  attr_once "points" attrs s -> spells_numbers E s vs -> Nat.odd (length vs) = true ->
  element_fails fuel "polyline" attrs c (ErrMsg "polygon has odd number of points")
  /\ element_fails fuel "polygon" attrs c (ErrMsg "polygon has odd number of points").
Proof. exact @poly_odd_error. Qed.
Print Assumptions C21_odd.
Example C21_example :
  spells_numbers D "1,2 3-4 5 6" [V 1 1; V 2 1; V 3 1; V (-4) 1; V 5 1; V 6 1]
  /\ attr_once "points" [mkAttr "fill" "red"; mkAttr "points" "1,2 3-4 5 6"] "1,2 3-4 5 6"
  /\ length_attr (E := D) ex_box OfWidth "x1" [mkAttr "x1" "5"; mkAttr "x2" "50%"] (V 5 1)
  /\ draw_element "polygon" [mkAttr "fill" "red"; mkAttr "points" "1,2 3-4 5 6"]
     = Some [OpMoveTo (64, 128); OpLineTo (192, -256); OpLineTo (320, 384); OpClose]%Z
  /\ draw_element "polyline" [mkAttr "points" "1,2 3-4"] = Some []
  /\ draw_element "line" [mkAttr "x1" "5"; mkAttr "x2" "50%"] = Some [OpMoveTo (320, 0); OpLineTo (6400, 0)]%Z.
Proof.
  split; [|split; [|split; [|split; [|split]]]].
  - exact ex_points.
  - exists [mkAttr "fill" "red"], []. repeat split.
  - exact ex_len5.
  - vm_compute. reflexivity.
  - vm_compute. reflexivity.
  - vm_compute. reflexivity.
Qed.

(** C22: a rect without rounded corners is the closed rectangle.  [unmoved]: turning by zero degrees about the
    centre of the rectangle is exact, which [C22_unmoved] shows of float64. *)
Theorem C22_rect_partial : forall (E : Env) (fuel : nat) (attrs : list attr) (x y w h rx ry : F E) (c : cursor E),
  let vb := sv_viewBox (c_svg c) in
  pc_path (c_pc c) = [] ->
  length_attr vb OfWidth "x" attrs x -> length_attr vb OfHeight "y" attrs y ->
  length_attr vb OfWidth "width" attrs w -> length_attr vb OfHeight "height" attrs h ->
  length_attr vb OfWidth "rx" attrs rx -> length_attr vb OfHeight "ry" attrs ry ->
  feqb E w (f0 E) = false -> feqb E h (f0 E) = false ->
  fleb E rx (f0 E) = true -> fleb E ry (f0 E) = true ->
  let off := offset c in
  unmoved E (fdiv E (fadd E (fadd E x (fst off)) (fadd E (fadd E w x) (fst off))) (fnum E 2))
            (fdiv E (fadd E (fadd E y (snd off)) (fadd E (fadd E h y) (snd off))) (fnum E 2)) ->
  element_draws fuel "rect" attrs c
    [OpMoveTo (dot E off (x, y)); OpLineTo (dot E off (fadd E w x, y)); OpLineTo (dot E off (fadd E w x, fadd E h y));
     OpLineTo (dot E off (x, fadd E h y)); OpClose].
Proof. exact @rect_element. Qed.
Print Assumptions C22_rect_partial.
Theorem C22_unmoved : forall (O : Oracles) (cx cy : F (F64 O)), trig0 O ->
  valid cx -> valid cy -> finite cx -> finite cy -> unmoved (F64 O) cx cy.
Proof. exact unmoved_F64. Qed.
Print Assumptions C22_unmoved.
Example C22_example :
  trig0 demoO
  /\ valid (V 75 10) /\ finite (V 75 10)
  /\ fdiv D (fadd D (fadd D (V 5 1) (V 0 1)) (fadd D (fadd D (V 10 1) (V 5 1)) (V 0 1))) (fnum D 2) = V 10 1
  /\ draw_element "rect" [mkAttr "width" "10"; mkAttr "y" "1"; mkAttr "x" "5"; mkAttr "height" "2"]
     = Some [OpMoveTo (320, 64); OpLineTo (960, 64); OpLineTo (960, 192); OpLineTo (320, 192); OpClose]%Z.
Proof. repeat split; vm_compute; reflexivity. Qed.

(** C23: a circle or ellipse is a closed curve of cubic pieces that starts and ends at (cx + rx, cy) *)
Theorem C23_round : forall (E : Env) (fuel : nat) (attrs : list attr) (cx cy r rx ry : F E) (c : cursor E),
  let vb := sv_viewBox (c_svg c) in
  pc_path (c_pc c) = [] -> length_attr vb OfWidth "cx" attrs cx -> length_attr vb OfHeight "cy" attrs cy ->
  (length_attr vb OfDiagonal "r" attrs r -> has_attr "rx" attrs = false -> has_attr "ry" attrs = false -> feqb E r (f0 E) = false ->
     exists p, element_draws fuel "circle" attrs c p
       /\ closed_curve (grid E (fadd E (fadd E cx (fst (offset c))) r, fadd E cy (snd (offset c)))) p)
  /\ (length_attr vb OfWidth "rx" attrs rx -> length_attr vb OfHeight "ry" attrs ry -> has_attr "r" attrs = false ->
     feqb E rx (f0 E) = false -> feqb E ry (f0 E) = false ->
     exists p, element_draws fuel "ellipse" attrs c p
       /\ closed_curve (grid E (fadd E (fadd E cx (fst (offset c))) rx, fadd E cy (snd (offset c)))) p).
Proof. exact @round_element. Qed.
Print Assumptions C23_round.
Example C23_example :
  match draw_element "ellipse" [mkAttr "cx" "5"; mkAttr "ry" "2"; mkAttr "rx" "3"] with
  | Some (OpMoveTo (512, 0) :: OpCubicTo _ _ _ :: _ :: _)%Z => true | _ => false end = true
  /\ match draw_element "circle" [mkAttr "r" "5%"; mkAttr "cx" "5"] with
  | Some (OpMoveTo _ :: OpCubicTo _ _ _ :: _ :: _)%Z => true | _ => false end = true.
Proof. split; vm_compute; reflexivity. Qed.

(** C24: shapes without extent draw nothing and are no error *)
Theorem C24_flat : forall (E : Env) (fuel : nat) (attrs : list attr) (x y w h rx ry cx cy r : F E) (c : cursor E),
  let vb := sv_viewBox (c_svg c) in
  (length_attr vb OfWidth "x" attrs x -> length_attr vb OfHeight "y" attrs y ->
   length_attr vb OfWidth "width" attrs w -> length_attr vb OfHeight "height" attrs h ->
   length_attr vb OfWidth "rx" attrs rx -> length_attr vb OfHeight "ry" attrs ry ->
   feqb E w (f0 E) = true \/ feqb E h (f0 E) = true -> element_draws fuel "rect" attrs c (pc_path (c_pc c)))
  /\ (length_attr vb OfWidth "cx" attrs cx -> length_attr vb OfHeight "cy" attrs cy -> length_attr vb OfDiagonal "r" attrs r ->
   has_attr "rx" attrs = false -> has_attr "ry" attrs = false ->
   feqb E r (f0 E) = true -> element_draws fuel "circle" attrs c (pc_path (c_pc c)))
  /\ (length_attr vb OfWidth "cx" attrs cx -> length_attr vb OfHeight "cy" attrs cy ->
   length_attr vb OfWidth "rx" attrs rx -> length_attr vb OfHeight "ry" attrs ry -> has_attr "r" attrs = false ->
   feqb E rx (f0 E) = true \/ feqb E ry (f0 E) = true -> element_draws fuel "ellipse" attrs c (pc_path (c_pc c))).
Proof. exact @flat_elements. Qed.
Print Assumptions C24_flat.
Example C24_example :
  map (fun '(n, l) => draw_element n l)
    [("rect", [mkAttr "width" "10"; mkAttr "x" "5"]); ("circle", [mkAttr "cx" "4"; mkAttr "r" "0px"]); ("ellipse", [mkAttr "rx" "3"])]
  = [Some []; Some []; Some []]
  /\ feqb D (V 0 1) (f0 D) = true /\ length_attr (E := D) ex_box OfWidth "r" [] (V 0 1).
Proof. repeat split; vm_compute; reflexivity. Qed.

(** C38: a coordinate of magnitude below 2^25 is stored as the nearest multiple of 1/64 towards zero *)
Theorem C38_grid : forall (O : Oracles) (x : F (F64 O)), valid x -> finite x -> (Rabs (float_value x) < 2 ^ 25)%R ->
  let q := (IZR (f_to_i32 (F64 O) (fmul (F64 O) x (fnum (F64 O) 64))) / 64)%R in
  (Rabs (float_value x - q) < / 64)%R /\ (Rabs q <= Rabs (float_value x))%R /\ (0 <= q * float_value x)%R.
Proof. exact grid_close. Qed.
Print Assumptions C38_grid.
(** the stored points of lines, polylines and rectangles are those *)
Definition snap (O : Oracles) (x : F (F64 O)) (n : Z) : Prop :=
  valid x -> finite x -> (Rabs (float_value x) < 2 ^ 25)%R ->
  (Rabs (float_value x - IZR n / 64) < / 64)%R /\ (Rabs (IZR n / 64) <= Rabs (float_value x))%R /\ (0 <= IZR n / 64 * float_value x)%R.
Definition snaps (O : Oracles) (off p : point (F64 O)) (d : pt) : Prop :=
  snap O (fadd (F64 O) (fst p) (fst off)) (fst d) /\ snap O (fadd (F64 O) (snd p) (snd off)) (snd d).
Lemma snaps_dot O off p : snaps O off p (dot (F64 O) off p).
Proof. split; exact (grid_close O _). Qed.
Lemma snaps_dots O off ps : Forall2 (snaps O off) ps (map (dot (F64 O) off) ps).
Proof. induction ps; constructor; [apply snaps_dot|assumption]. Qed.
Lemma snap_poly O fuel attrs (c : cursor (F64 O)) s (p : point (F64 O)) ps : pc_path (c_pc c) = [] -> attr_once "points" attrs s ->
  spells_numbers (F64 O) s (flat_map (p1 (F64 O)) (p :: ps)) -> 2 <= length ps ->
  exists a bs, element_draws fuel "polyline" attrs c (OpMoveTo a :: map OpLineTo bs) /\ element_draws fuel "polygon" attrs c (OpMoveTo a :: map OpLineTo bs ++ [OpClose])
       /\ snaps O (offset c) p a /\ Forall2 (snaps O (offset c)) ps bs.
Proof.
  intros Hp H1 H2 H3. destruct (poly_elements fuel attrs s p ps c Hp H1 H2 H3) as [K1 K2]. exists (dot (F64 O) (offset c) p), (map (dot (F64 O) (offset c)) ps).
  rewrite map_map. split; [exact K1|]. split; [exact K2|]. split; [apply snaps_dot|apply snaps_dots].
Qed.
Theorem C38_stored : forall (O : Oracles) (fuel : nat) (attrs : list attr) (c : cursor (F64 O)), let K := F64 O in
  let vb := sv_viewBox (c_svg c) in let off := offset c in pc_path (c_pc c) = [] ->
  (forall x1 y1 x2 y2 : F K,
     length_attr vb OfWidth "x1" attrs x1 -> length_attr vb OfHeight "y1" attrs y1 ->
     length_attr vb OfWidth "x2" attrs x2 -> length_attr vb OfHeight "y2" attrs y2 ->
     exists a b, element_draws fuel "line" attrs c [OpMoveTo a; OpLineTo b] /\ snaps O off (x1, y1) a /\ snaps O off (x2, y2) b)
  /\ (forall s (p : point K) ps, attr_once "points" attrs s -> spells_numbers K s (flat_map (p1 K) (p :: ps)) -> 2 <= length ps ->
     exists a bs, element_draws fuel "polyline" attrs c (OpMoveTo a :: map OpLineTo bs) /\ element_draws fuel "polygon" attrs c (OpMoveTo a :: map OpLineTo bs ++ [OpClose])
       /\ snaps O off p a /\ Forall2 (snaps O off) ps bs)
  /\ (forall x y w h rx ry : F K,
     length_attr vb OfWidth "x" attrs x -> length_attr vb OfHeight "y" attrs y ->
     length_attr vb OfWidth "width" attrs w -> length_attr vb OfHeight "height" attrs h ->
     length_attr vb OfWidth "rx" attrs rx -> length_attr vb OfHeight "ry" attrs ry ->
     feqb K w (f0 K) = false -> feqb K h (f0 K) = false -> fleb K rx (f0 K) = true -> fleb K ry (f0 K) = true ->
     unmoved K (fdiv K (fadd K (fadd K x (fst off)) (fadd K (fadd K w x) (fst off))) (fnum K 2))
               (fdiv K (fadd K (fadd K y (snd off)) (fadd K (fadd K h y) (snd off))) (fnum K 2)) ->
     exists a b d e, element_draws fuel "rect" attrs c [OpMoveTo a; OpLineTo b; OpLineTo d; OpLineTo e; OpClose]
       /\ snaps O off (x, y) a /\ snaps O off (fadd K w x, y) b /\ snaps O off (fadd K w x, fadd K h y) d /\ snaps O off (x, fadd K h y) e).
Proof.
  exact (fun O fuel attrs c Hp => conj
    (fun x1 y1 x2 y2 H1 H2 H3 H4 => ex_intro _ _ (ex_intro _ _ (conj (line_element fuel attrs x1 y1 x2 y2 c Hp H1 H2 H3 H4) (conj (snaps_dot O _ _) (snaps_dot O _ _)))))
    (conj (fun s p ps H1 H2 H3 => snap_poly O fuel attrs c s p ps Hp H1 H2 H3)
    (fun x y w h rx ry H1 H2 H3 H4 H5 H6 H7 H8 H9 H10 H11 =>
       ex_intro _ _ (ex_intro _ _ (ex_intro _ _ (ex_intro _ _ (conj (rect_element fuel attrs x y w h rx ry c Hp H1 H2 H3 H4 H5 H6 H7 H8 H9 H10 H11)
         (conj (snaps_dot O _ _) (conj (snaps_dot O _ _) (conj (snaps_dot O _ _) (snaps_dot O _ _))))))))))).
Qed.
Print Assumptions C38_stored.
Example C38_example : let x := V (-123456) 100 in
  valid x /\ finite x /\ x = S754_finite true 5429652300748554 (-42) /\ f_to_i32 D (fmul D x (fnum D 64)) = (-79011)%Z.
Proof. repeat split; vm_compute; reflexivity. Qed.

(** * SpecDoc: documents as trees

    A well-formed XML document is a list of trees; [tokens] is the token sequence the XML decoder
    delivers for it. *)
From Verif Require Export SpecStyle Elements.

Inductive node :=
| Elem (name : string) (attrs : list attr) (kids : list node)
| Chars (s : string)
| Misc.                                       (* comment, directive, processing instruction *)
Fixpoint tokens (n : node) : list token :=
  match n with
  | Elem name attrs kids => TStart name attrs :: flat_map tokens kids ++ [TEnd name]
  | Chars s => [TChar s]
  | Misc => [TOther]
  end.
(** some element of the tree is named [t] *)
Fixpoint mentions (t : string) (n : node) : bool :=
  match n with
  | Elem name _ kids => String.eqb name t || existsb (mentions t) kids
  | _ => false
  end.

(** ** Attributes.  Where a name is repeated the last one counts. *)
Fixpoint text_attr (n d : string) (attrs : list attr) : string :=
  match attrs with
  | [] => d
  | a :: r => text_attr n (if String.eqb (a_name a) n then a_val a else d) r
  end.
Definition has_attr (n : string) (attrs : list attr) : bool := existsb (fun a => String.eqb (a_name a) n) attrs.
(** attribute [n] occurs once, with value [s] *)
Definition attr_once (n : string) (attrs : list attr) (s : string) : Prop :=
  exists l r, attrs = l ++ mkAttr n s :: r /\ has_attr n l = false /\ has_attr n r = false.
Section Attrs.
Context {E : Env}.
Notation F := (F E).
(** [value_attr reads n d attrs x]: [x] is what the value of attribute [n] reads as, [d] if absent *)
Fixpoint value_attr {A} (reads : string -> A -> Prop) (n : string) (d : A) (attrs : list attr) (x : A) : Prop :=
  match attrs with
  | [] => x = d
  | a :: r =>
    if String.eqb (a_name a) n then exists y, reads (a_val a) y /\ value_attr reads n y r x
    else value_attr reads n d r x
  end.
Definition length_attr (vb : bounds E) (e : extent) (n : string) (attrs : list attr) (x : F) : Prop :=
  value_attr (is_length E vb e) n (f0 E) attrs x.
End Attrs.

(** ** The root element: view box *)
Section Root.
Context {E : Env}.
Notation F := (F E).
Definition four (s : string) (q : F * F * F * F) : Prop :=
  let '(x, y, w, h) := q in spells_numbers E s [x; y; w; h].
Definition view_box (attrs : list attr) (vb : bounds E) : Prop :=
  exists x y w h width height,
    value_attr four "viewBox" (f0 E, f0 E, f0 E, f0 E) attrs (x, y, w, h)
    /\ value_attr (is_number E) "width" (f0 E) attrs width
    /\ value_attr (is_number E) "height" (f0 E) attrs height
    /\ vb = mkB x y (if feqb E w (f0 E) then width else w) (if feqb E h (f0 E) then height else h).
End Root.

(** ** Shapes.  [shape vb off name attrs p]: an element of that name and those attributes has the
    outline [p], where lengths refer to the view box [vb] and everything is shifted by [off].
    An empty outline is not drawn. *)
Section Shapes.
Context (E : Env).
Notation F := (F E).
Local Notation "a +. b" := (fadd E a b) (at level 50, left associativity).
Definition grid (p : point E) : pt := (f_to_i32 E (fmul E (fst p) (fnum E 64)), f_to_i32 E (fmul E (snd p) (fnum E 64))).
Definition is_cubic (o : op) : Prop := match o with OpCubicTo _ _ _ => True | _ => False end.
(** a closed curve of cubic pieces from and to [a] *)
Definition closed_curve (a : pt) (p : path) : Prop :=
  exists cs, p = OpMoveTo a :: cs ++ [OpClose] /\ Forall is_cubic cs
    /\ (cs = [] \/ exists pre b c, cs = pre ++ [OpCubicTo b c a]).
(** moving the point (cx, cy) to the origin, turning by zero degrees and moving back keeps every
    grid point where it is *)
Definition unmoved (cx cy : F) : Prop := forall p : point E,
  tFixed (mTranslate (mRotate (mTranslate identity cx cy) (fmul E (f0 E) (fpi_180 E))) (fneg E cx) (fneg E cy)) (grid p) = grid p.
Context (vb : bounds E) (off : point E).
Inductive shape : string -> list attr -> path -> Prop :=
| sh_line attrs x1 y1 x2 y2 :
    length_attr vb OfWidth "x1" attrs x1 -> length_attr vb OfHeight "y1" attrs y1 ->
    length_attr vb OfWidth "x2" attrs x2 -> length_attr vb OfHeight "y2" attrs y2 ->
    shape "line" attrs [OpMoveTo (dot E off (x1, y1)); OpLineTo (dot E off (x2, y2))]
| sh_polyline attrs s p ps :
    attr_once "points" attrs s -> spells_numbers E s (flat_map (p1 E) (p :: ps)) -> 2 <= length ps ->
    shape "polyline" attrs (OpMoveTo (dot E off p) :: map (fun q => OpLineTo (dot E off q)) ps)
| sh_polygon attrs s p ps :
    attr_once "points" attrs s -> spells_numbers E s (flat_map (p1 E) (p :: ps)) -> 2 <= length ps ->
    shape "polygon" attrs (OpMoveTo (dot E off p) :: map (fun q => OpLineTo (dot E off q)) ps ++ [OpClose])
| sh_path attrs s cs :
    attr_once "d" attrs s -> spells E s cs -> closes_open E false cs = true ->
    shape "path" attrs (draws E off cs)
| sh_no_path attrs : has_attr "d" attrs = false -> shape "path" attrs []
| sh_rect attrs x y w h rx ry :
    length_attr vb OfWidth "x" attrs x -> length_attr vb OfHeight "y" attrs y ->
    length_attr vb OfWidth "width" attrs w -> length_attr vb OfHeight "height" attrs h ->
    length_attr vb OfWidth "rx" attrs rx -> length_attr vb OfHeight "ry" attrs ry ->
    feqb E w (f0 E) = false -> feqb E h (f0 E) = false ->
    fleb E rx (f0 E) = true -> fleb E ry (f0 E) = true ->
    unmoved (fdiv E ((x +. fst off) +. ((w +. x) +. fst off)) (fnum E 2))
            (fdiv E ((y +. snd off) +. ((h +. y) +. snd off)) (fnum E 2)) ->
    shape "rect" attrs
      [OpMoveTo (dot E off (x, y)); OpLineTo (dot E off (w +. x, y)); OpLineTo (dot E off (w +. x, h +. y));
       OpLineTo (dot E off (x, h +. y)); OpClose]
| sh_rect_flat attrs x y w h rx ry :
    length_attr vb OfWidth "x" attrs x -> length_attr vb OfHeight "y" attrs y ->
    length_attr vb OfWidth "width" attrs w -> length_attr vb OfHeight "height" attrs h ->
    length_attr vb OfWidth "rx" attrs rx -> length_attr vb OfHeight "ry" attrs ry ->
    feqb E w (f0 E) = true \/ feqb E h (f0 E) = true ->
    shape "rect" attrs []
| sh_circle attrs cx cy r p :
    length_attr vb OfWidth "cx" attrs cx -> length_attr vb OfHeight "cy" attrs cy -> length_attr vb OfDiagonal "r" attrs r ->
    has_attr "rx" attrs = false -> has_attr "ry" attrs = false ->
    feqb E r (f0 E) = false -> closed_curve (grid ((cx +. fst off) +. r, cy +. snd off)) p ->
    shape "circle" attrs p
| sh_circle_flat attrs cx cy r :
    length_attr vb OfWidth "cx" attrs cx -> length_attr vb OfHeight "cy" attrs cy -> length_attr vb OfDiagonal "r" attrs r ->
    has_attr "rx" attrs = false -> has_attr "ry" attrs = false ->
    feqb E r (f0 E) = true -> shape "circle" attrs []
| sh_ellipse attrs cx cy rx ry p :
    length_attr vb OfWidth "cx" attrs cx -> length_attr vb OfHeight "cy" attrs cy ->
    length_attr vb OfWidth "rx" attrs rx -> length_attr vb OfHeight "ry" attrs ry -> has_attr "r" attrs = false ->
    feqb E rx (f0 E) = false -> feqb E ry (f0 E) = false ->
    closed_curve (grid ((cx +. fst off) +. rx, cy +. snd off)) p ->
    shape "ellipse" attrs p
| sh_ellipse_flat attrs cx cy rx ry :
    length_attr vb OfWidth "cx" attrs cx -> length_attr vb OfHeight "cy" attrs cy ->
    length_attr vb OfWidth "rx" attrs rx -> length_attr vb OfHeight "ry" attrs ry -> has_attr "r" attrs = false ->
    feqb E rx (f0 E) = true \/ feqb E ry (f0 E) = true ->
    shape "ellipse" attrs [].
End Shapes.

(** the drawing function of the element named [name] turns the state [c] into one with outline [p] *)
Definition element_draws {E} (fuel : nat) (name : string) (attrs : list attr) (c : cursor E) (p : path) : Prop :=
  exists df c', drawFuncs fuel name = Some df /\ df attrs c = (c', Ret tt) /\ pc_path (c_pc c') = p.
Definition element_fails {E} (fuel : nat) (name : string) (attrs : list attr) (c : cursor E) (e : goerr) : Prop :=
  exists df c', drawFuncs fuel name = Some df /\ df attrs c = (c', Err e).
(** the offset of the use element being drawn, (0, 0) outside *)
Definition offset {E} (c : cursor E) : point E := (pc_curX (c_pc c), pc_curY (c_pc c)).

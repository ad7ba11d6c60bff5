(** * SpecStyle: what style declarations do

    A style has fifteen independent parts; a declaration [k: v] assigns some of them.  The
    attributes of an element are read as a list of declarations. *)
From Verif Require Export SpecAttr SpecPath.

(** ** The parts of a style *)
Inductive part := FillOpacity | StrokeOpacity | StrokeWidth | FillRule | MiterLimit | LineJoin
  | LineCap | LeadLineCap | LineGap | DashArray | DashOffset | FillPaint | StrokePaint | MaskList | Transform.
Section Parts.
Context (E : Env).
Definition part_type (p : part) : Type :=
  match p with
  | FillOpacity | StrokeOpacity | StrokeWidth | DashOffset => F E
  | FillRule => bool                         (* true: nonzero, false: evenodd *)
  | MiterLimit => Z                          (* in 1/64 *)
  | LineJoin => joinMode
  | LineCap | LeadLineCap => capMode
  | LineGap => gapMode
  | DashArray => list (F E)
  | FillPaint | StrokePaint => option (pattern E)
  | MaskList => sslice
  | Transform => matrix E
  end.
Definition part_of (p : part) (st : style E) : part_type p :=
  match p with
  | FillOpacity => st_fillOpacity st
  | StrokeOpacity => st_lineOpacity st
  | StrokeWidth => st_lineWidth st
  | FillRule => st_nonZero st
  | MiterLimit => jMiterLimit (st_join st)
  | LineJoin => jLineJoin (st_join st)
  | LineCap => jTrailLineCap (st_join st)
  | LeadLineCap => jLeadLineCap (st_join st)
  | LineGap => jLineGap (st_join st)
  | DashArray => st_dash st
  | DashOffset => st_dashOffset st
  | FillPaint => st_filler st
  | StrokePaint => st_liner st
  | MaskList => st_masks st
  | Transform => st_transform st
  end.
Definition part_eq_dec (p q : part) : {p = q} + {p <> q}.
Proof. decide equality. Defined.
(** the style whose parts are given by [f] *)
Definition build (f : forall p, part_type p) : style E :=
  mkStyle (f FillOpacity) (f StrokeOpacity) (f StrokeWidth) (f FillRule)
    (mkJoin (f MiterLimit) (f LineJoin) (f LineCap) (f LeadLineCap) (f LineGap))
    (f DashArray) (f DashOffset) (f FillPaint) (f StrokePaint) (f MaskList) (f Transform).
(** [st] with part [p] replaced by [x] *)
Definition put_part (p : part) (x : part_type p) (st : style E) : style E :=
  build (fun q => match part_eq_dec p q with
                  | left e => eq_rect p part_type x q e
                  | right _ => part_of q st
                  end).
Definition update := {p : part & part_type p}.
Definition put_parts (us : list update) (st : style E) : style E :=
  fold_left (fun st u => put_part (projT1 u) (projT2 u) st) us st.
Definition assign (p : part) (x : part_type p) : update := existT _ p x.
End Parts.
Arguments part_of {E}. Arguments put_part {E}. Arguments put_parts {E}. Arguments assign {E}.

(** the parts each property name is about *)
Definition parts_named (k : string) : list part :=
  match List.find (fun e => String.eqb k (fst e))
    [("fill", [FillPaint]); ("stroke", [StrokePaint]); ("fill-rule", [FillRule]);
     ("stroke-width", [StrokeWidth]); ("stroke-linecap", [LineCap]); ("stroke-leadlinecap", [LeadLineCap]);
     ("stroke-linegap", [LineGap]); ("stroke-linejoin", [LineJoin]); ("stroke-miterlimit", [MiterLimit]);
     ("stroke-dashoffset", [DashOffset]); ("stroke-dasharray", [DashArray]);
     ("opacity", [FillOpacity; StrokeOpacity]); ("fill-opacity", [FillOpacity]);
     ("stroke-opacity", [StrokeOpacity]); ("transform", [Transform]); ("mask", [MaskList])]%string
  with Some e => snd e | None => [] end.

(** ** Keywords *)
Definition cap_words : list (string * capMode) :=
  [("butt", ButtCap); ("round", RoundCap); ("square", SquareCap); ("cubic", CubicCap); ("quadratic", QuadraticCap)]%string.
Definition gap_words : list (string * gapMode) :=
  [("flat", FlatGap); ("round", RoundGap); ("cubic", CubicGap); ("quadratic", QuadraticGap)]%string.
Definition join_words : list (string * joinMode) :=
  [("miter", Miter); ("miter-clip", MiterClip); ("arc-clip", ArcClip); ("round", Round); ("arc", Arc); ("bevel", Bevel)]%string.

Section Decl.
Context (E : Env).
(** ** Paint *)
Definition paint (p : option (Z * Z * Z * Z)) : option (pattern E) :=
  match p with Some (r, g, b, a) => Some (PPlain r g b a) | None => None end.
(** the single colour that stands for a paint: the first coloured stop of a gradient, black if none *)
Definition paint_color (p : option (pattern E)) : color :=
  match p with
  | Some (PPlain r g b a) => CNRGBA r g b a
  | Some (PGrad g) =>
    match List.find (fun s => match stColor s with Some _ => true | None => false end) (gStops g) with
    | Some s => match stColor s with Some c => c | None => CRGBA 0 0 0 255 end
    | None => CRGBA 0 0 0 255
    end
  | None => CRGBA 0 0 0 255
  end.
(** a gradient used where the inherited paint is [p]: stops without a colour take that of [p] *)
Definition with_stops (g : gradient E) (p : option (pattern E)) : gradient E :=
  mkGrad (gDirection g)
    (map (fun s => mkStop (Some (match stColor s with Some c => c | None => paint_color p end)) (stOffset s) (stOpacity s)) (gStops g))
    (gBounds g) (gMatrix g) (gSpread g) (gUnits g).
(** [url_ref v id]: [v] is url(#id), white space allowed inside the parentheses.  The id has no
    white space at its end. *)
Definition url_ref (v id : string) : Prop :=
  exists l r, v = ("url(" ++ l ++ String "#" id ++ r ++ ")")%string /\ blank l = true /\ blank r = true
    /\ all_chars (fun c => is_ascii c && negb (is_blank c)) id = true.
(** [is_paint grads old v p]: the text [v] denotes the paint [p] where the gradients [grads] are
    defined and [old] is the inherited paint *)
Inductive is_paint (grads : string -> option (gradient E)) (old : option (pattern E)) : string -> option (pattern E) -> Prop :=
| paint_colour v c : colour E v c -> is_paint grads old v (paint c)
| paint_url v id g : url_ref v id -> grads id = Some g -> is_paint grads old v (Some (PGrad (with_stops g old)))
| paint_no_url v id : url_ref v id -> grads id = None -> is_paint grads old v (Some (PPlain 0 0 0 255)).

(** ** Dash lists: lengths between commas and spaces *)
Definition dash_sep (c : ascii) : bool := Ascii.eqb c "," || Ascii.eqb c " ".
Inductive dash_list (vb : bounds E) : string -> list (F E) -> Prop :=
| dash_nil s : all_chars dash_sep s = true -> dash_list vb s []
| dash_cons sep w s x xs :
    all_chars dash_sep sep = true -> all_chars (fun c => negb (dash_sep c)) w = true ->
    is_length E vb OfDiagonal w x ->
    match s with EmptyString => True | String c _ => dash_sep c = true end ->
    dash_list vb s xs -> dash_list vb (sep ++ w ++ s)%string (x :: xs).

(** ** Transform lists *)
Inductive tfun := Translate (x y : F E) | Scale (x y : F E) | Rotate (deg : F E) | RotateAt (deg x y : F E)
  | SkewX (deg : F E) | SkewY (deg : F E) | MatrixFn (m : matrix E).
(** names (any case) and arguments *)
Definition tfun_reads (name : string) (args : list (F E)) (f : tfun) : Prop :=
  match f with
  | Translate x y => name = "translate"%string /\ (args = [x; y])
  | Scale x y => name = "scale"%string /\ (args = [x; y] \/ args = [x] /\ y = x)
  | Rotate a => name = "rotate"%string /\ args = [a]
  | RotateAt a x y => name = "rotate"%string /\ args = [a; x; y]
  | SkewX a => name = "skewx"%string /\ args = [a]
  | SkewY a => name = "skewy"%string /\ args = [a]
  | MatrixFn m => name = "matrix"%string /\ args = [mA m; mB m; mC m; mD m; mE m; mF m]
  end.
Inductive transform_text : string -> list tfun -> Prop :=
| tt_nil s : blank s = true -> transform_text s []
| tt_cons l name m args vs f s fs :
    blank l = true -> blank m = true -> tfun_reads (low_case name) vs f ->
    spells_numbers E args vs -> args <> EmptyString -> transform_text s fs ->
    transform_text (l ++ name ++ m ++ "(" ++ args ++ ")" ++ s)%string (f :: fs).
(** the matrix after one function, in the operations of matrix.go (their meaning is the subject of
    C17 and C18) *)
Definition radians (d : F E) : F E := fdiv E (fmul E d (fpi E)) (fnum E 180).
Definition tfun_apply (m : matrix E) (f : tfun) : matrix E :=
  match f with
  | Translate x y => mTranslate m x y
  | Scale x y => mScale m x y
  | Rotate a => mRotate m (radians a)
  | RotateAt a x y => mTranslate (mRotate (mTranslate m x y) (radians a)) (fneg E x) (fneg E y)
  | SkewX a => mSkewX m (radians a)
  | SkewY a => mSkewY m (radians a)
  | MatrixFn m' => mMult m m'
  end.

(** ** One declaration
    [decl vb grads par st k v us]: in an element whose parent has style [par], after earlier
    declarations made the style [st], the declaration [k: v] performs the assignments [us]. *)
Context (vb : bounds E) (grads : string -> option (gradient E)) (par : style E).
Inductive decl (st : style E) : string -> string -> list (update E) -> Prop :=
| decl_fill v p : is_paint grads (part_of FillPaint st) v p -> decl st "fill" v [assign FillPaint p]
| decl_stroke v p : is_paint grads (part_of StrokePaint st) v p -> decl st "stroke" v [assign StrokePaint p]
| decl_evenodd : decl st "fill-rule" "evenodd" [assign FillRule false]
| decl_nonzero : decl st "fill-rule" "nonzero" [assign FillRule true]
| decl_cap v m : List.In (v, m) cap_words -> decl st "stroke-linecap" v [assign LineCap m]
| decl_leadcap v m : List.In (v, m) cap_words -> decl st "stroke-leadlinecap" v [assign LeadLineCap m]
| decl_gap v m : List.In (v, m) gap_words -> decl st "stroke-linegap" v [assign LineGap m]
| decl_join v m : List.In (v, m) join_words -> decl st "stroke-linejoin" v [assign LineJoin m]
| decl_miter v x : is_number E v x -> decl st "stroke-miterlimit" v [assign MiterLimit (f_to_i32 E (fmul E x (fnum E 64)))]
| decl_width v x : is_length E vb OfWidth v x -> decl st "stroke-width" v [assign StrokeWidth x]
| decl_dashoffset v x : is_length E vb OfDiagonal v x -> decl st "stroke-dashoffset" v [assign DashOffset x]
| decl_dasharray v xs : v <> "none"%string -> dash_list vb v xs -> decl st "stroke-dasharray" v [assign DashArray xs]
| decl_opacity v x : is_number E v x ->
    decl st "opacity" v [assign FillOpacity (fmul E (part_of FillOpacity st) x); assign StrokeOpacity (fmul E (part_of StrokeOpacity st) x)]
| decl_fill_opacity v x : is_number E v x -> decl st "fill-opacity" v [assign FillOpacity (fmul E (part_of FillOpacity st) x)]
| decl_stroke_opacity v x : is_number E v x -> decl st "stroke-opacity" v [assign StrokeOpacity (fmul E (part_of StrokeOpacity st) x)]
| decl_transform v fs : transform_text v fs ->
    decl st "transform" v [assign Transform (fold_left tfun_apply (rev fs) (part_of Transform par))]
| decl_other k v : parts_named k = [] -> decl st k v [].
(** a list of declarations *)
Inductive decls : style E -> list (string * string) -> style E -> Prop :=
| decls_nil st : decls st [] st
| decls_cons st k v us ds st' : decl st k v us -> decls (put_parts us st) ds st' -> decls st ((k, v) :: ds) st'.
End Decl.

(** ** The declarations of the attributes of an element *)
(** [v] without surrounding white space is [w] *)
Definition no_blank_end (w : string) : bool :=
  match w with String c _ => negb (is_blank c) | EmptyString => true end && negb (ends_with is_blank w).
Definition padded (v w : string) : Prop :=
  exists l r, v = (l ++ w ++ r)%string /\ blank l = true /\ blank r = true /\ no_blank_end w = true /\ all_chars is_ascii w = true.
Definition lacks (d : ascii) (s : string) : bool := all_chars (fun c => negb (Ascii.eqb c d)) s.
(** the text of one declaration "k: v" *)
Inductive decl_text : string -> list (string * string) -> Prop :=
| dt_decl n v k w : padded n k -> padded v w -> lacks ":" n = true -> lacks ":" v = true ->
    decl_text (n ++ ":" ++ v)%string [(low_case k, w)]
| dt_none s : lacks ":" s = true -> decl_text s [].
Inductive style_text : string -> list (string * string) -> Prop :=
| stt_last s ds : lacks ";" s = true -> decl_text s ds -> style_text s ds
| stt_cons s ds t ds' : lacks ";" s = true -> decl_text s ds -> style_text t ds' -> style_text (s ++ ";" ++ t)%string (ds ++ ds').
Inductive attr_decls : attr -> list (string * string) -> Prop :=
| ad_style n v ds : low_case n = "style"%string -> style_text v ds -> attr_decls (mkAttr n v) ds
| ad_pres n k v w : low_case n <> "style"%string -> padded n k -> padded v w -> lacks ":" n = true -> lacks ":" v = true ->
    attr_decls (mkAttr n v) [(low_case k, w)]
| ad_other n k v : low_case n <> "style"%string -> padded n k -> lacks ":" n = true -> parts_named (low_case k) = [] ->
    attr_decls (mkAttr n v) [].
Inductive attrs_decls : list attr -> list (string * string) -> Prop :=
| ads_nil : attrs_decls [] []
| ads_cons a ds l ds' : attr_decls a ds -> attrs_decls l ds' -> attrs_decls (a :: l) (ds ++ ds').

(** ** The numbers the properties [names] are given in a list of declarations *)
Inductive factors (E : Env) (names : list string) : list (string * string) -> list (F E) -> Prop :=
| fac_nil : factors E names [] []
| fac_take k v x ds xs : List.In k names -> is_number E v x -> factors E names ds xs -> factors E names ((k, v) :: ds) (x :: xs)
| fac_skip k v ds xs : ~ List.In k names -> factors E names ds xs -> factors E names ((k, v) :: ds) xs.

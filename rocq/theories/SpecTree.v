(** * SpecTree: what a document denotes

    The meaning of a document is a [world]: the figures it draws, its titles and descriptions, and
    the gradients, masks and definitions it declares.  It is given by recursion on the tree, with the
    style inherited from the parent as argument; no stack, cursor or flags are involved. *)
From Verif Require Export SpecDoc.

(** the element names the library supports *)
Definition known_names : list string :=
  ["svg"; "g"; "line"; "stop"; "rect"; "circle"; "ellipse"; "polyline"; "polygon"; "path"; "desc"; "defs"; "title";
   "linearGradient"; "radialGradient"; "mask"; "use"]%string.
Definition shape_names : list string := ["line"; "rect"; "circle"; "ellipse"; "polyline"; "polygon"; "path"]%string.

(** the character data of nodes that are not elements *)
Fixpoint text_of (ns : list node) : option string :=
  match ns with
  | [] => Some EmptyString
  | Chars s :: r => option_map (fun t => (s ++ t)%string) (text_of r)
  | Misc :: r => text_of r
  | Elem _ _ _ :: _ => None
  end.
(** the attributes of the first element *)
Fixpoint root_attrs (ns : list node) : list attr :=
  match ns with
  | Elem _ attrs _ :: _ => attrs
  | _ :: r => root_attrs r
  | [] => []
  end.
(** the outline [q] of an element drawn after [p]: path data replaces what was there before *)
Definition joined (name : string) (attrs : list attr) (p q : path) : path :=
  if String.eqb name "path" && has_attr "d" attrs then q else p ++ q.
Definition set {A} (f : string -> option A) (k : string) (a : A) : string -> option A :=
  fun k' => if String.eqb k' k then Some a else f k'.

Section Tree.
Context (E : Env).
Notation F := (F E).
(** a shape element to be drawn at an offset *)
Definition placed := (point E * string * list attr)%type.
(** what is drawn as one path: shape elements in order, with one style *)
Record figure := mkFig { fg_shapes : list placed; fg_style : style E }.
(** what a definition consists of: shape and use elements, and groups *)
Inductive dtree := DElem (name : string) (attrs : list attr) | DGroup (attrs : list attr) (kids : list dtree).
(** position and size of a mask *)
Definition mask_box := (F * F * F * F)%type.
Record world := mkWorld {
  w_figs : list figure;
  w_titles : list string; w_descs : list string;
  w_grads : string -> option (gradient E);
  w_masks : string -> option (mask_box * list figure);
  w_defs : string -> option (list dtree) }.
Definition world0 : world := mkWorld [] [] [] (fun _ => None) (fun _ => None) (fun _ => None).
Definition with_figs fs w := mkWorld fs (w_titles w) (w_descs w) (w_grads w) (w_masks w) (w_defs w).
Definition with_titles ts w := mkWorld (w_figs w) ts (w_descs w) (w_grads w) (w_masks w) (w_defs w).
Definition with_descs ts w := mkWorld (w_figs w) (w_titles w) ts (w_grads w) (w_masks w) (w_defs w).
Definition with_grads g w := mkWorld (w_figs w) (w_titles w) (w_descs w) g (w_masks w) (w_defs w).
Definition with_masks m w := mkWorld (w_figs w) (w_titles w) (w_descs w) (w_grads w) m (w_defs w).
Definition with_defs d w := mkWorld (w_figs w) (w_titles w) (w_descs w) (w_grads w) (w_masks w) d.

(** the style of an element with attributes [attrs] whose parent has style [par] *)
Definition styled (vb : bounds E) (grads : string -> option (gradient E)) (par : style E) (attrs : list attr) (st : style E) : Prop :=
  exists ds, attrs_decls attrs ds /\ decls E vb grads par par ds st.

(** [SH vb off name attrs p]: that element has the outline [p], where lengths refer to the view box
    [vb] and everything is shifted by [off]; [shape] of SpecDoc is one such relation *)
Context (SH : bounds E -> point E -> string -> list attr -> path -> Prop).
Context (vb : bounds E) (lenient : bool) (dep : nat).

(** ** Gradients *)
Definition one_of {A} (words : list (string * A)) (s : string) (x : A) : Prop := exists w, padded s w /\ List.In (w, x) words.
Definition unit_words : list (string * gradUnits) := [("userSpaceOnUse", UserSpaceOnUse); ("objectBoundingBox", ObjectBoundingBox)]%string.
Definition spread_words : list (string * spreadMethod) := [("pad", PadSpread); ("reflect", ReflectSpread); ("repeat", RepeatSpread)]%string.
(** what percentages and plain numbers of the coordinates refer to *)
Definition grad_box (u : gradUnits) : bounds E :=
  match u with UserSpaceOnUse => vb | ObjectBoundingBox => mkB (fnum E 0) (fnum E 0) (fnum E 1) (fnum E 1) end.
Definition linear_direction (box : bounds E) (attrs : list attr) (d : direction E) : Prop :=
  exists x1 y1 x2 y2,
    is_length E box OfWidth (text_attr "x1" "0%" attrs) x1 /\ is_length E box OfHeight (text_attr "y1" "0%" attrs) y1
    /\ is_length E box OfWidth (text_attr "x2" "100%" attrs) x2 /\ is_length E box OfHeight (text_attr "y2" "0" attrs) y2
    /\ d = Linear x1 y1 x2 y2.
Definition radial_direction (box : bounds E) (attrs : list attr) (d : direction E) : Prop :=
  exists cx cy fx fy r fr,
    is_length E box OfWidth (text_attr "cx" "50%" attrs) cx /\ is_length E box OfHeight (text_attr "cy" "50%" attrs) cy
    /\ is_length E box OfWidth (text_attr "fx" (text_attr "cx" "50%" attrs) attrs) fx
    /\ is_length E box OfHeight (text_attr "fy" (text_attr "cy" "50%" attrs) attrs) fy
    /\ is_length E box OfDiagonal (text_attr "r" "50%" attrs) r /\ is_length E box OfDiagonal (text_attr "fr" "50%" attrs) fr
    /\ d = Radial cx cy fx fy r fr.
(** [name] is the element name, [base] the transform of the element *)
Definition gradient_of (name : string) (base : matrix E) (attrs : list attr) (stops : list (gradStop E)) (g : gradient E) : Prop :=
  exists units spread m d,
    value_attr (one_of unit_words) "gradientUnits" ObjectBoundingBox attrs units
    /\ value_attr (one_of spread_words) "spreadMethod" PadSpread attrs spread
    /\ value_attr (fun s m => exists fs, transform_text E s fs /\ m = fold_left (tfun_apply E) (rev fs) base) "gradientTransform" identity attrs m
    /\ (name = "linearGradient"%string /\ linear_direction (grad_box units) attrs d
        \/ name = "radialGradient"%string /\ radial_direction (grad_box units) attrs d)
    /\ g = mkGrad (Some d) stops vb m spread units.

(** ** Stops *)
(** a number or a percentage *)
Definition is_fraction (s : string) (x : F) : Prop :=
  exists l w r v, blank l = true /\ blank r = true /\ number_text w = true /\ parseFloat E w = Some v
    /\ (s = (l ++ w ++ r)%string /\ x = fdiv E (fmul E v (fnum E 1)) (fnum E 1)
        \/ s = (l ++ w ++ "%" ++ r)%string /\ x = fdiv E (fmul E v (fnum E 1)) (fnum E 100)).
(** the colour of a stop: "none" leaves it open *)
Definition stop_color (c : option (Z * Z * Z * Z)) : option color :=
  match c with Some (r, g, b, a) => Some (CNRGBA r g b a) | None => None end.
(** the declarations of a stop: its attributes, then the stop-color and stop-opacity of its style attribute *)
Definition stop_decls (attrs : list attr) (ds : list (string * string)) : Prop :=
  exists sds, ds = map (fun a => (a_name a, a_val a)) attrs
                   ++ filter (fun d => String.eqb (fst d) "stop-color" || String.eqb (fst d) "stop-opacity") sds
    /\ ((has_attr "style" attrs = false /\ sds = []) \/ exists s, attr_once "style" attrs s /\ style_text s sds).
Fixpoint last_value {A} (reads : string -> A -> Prop) (n : string) (d : A) (ds : list (string * string)) (x : A) : Prop :=
  match ds with
  | [] => x = d
  | (k, v) :: r => if String.eqb k n then exists y, reads v y /\ last_value reads n y r x else last_value reads n d r x
  end.
Definition is_stop (attrs : list attr) (s : gradStop E) : Prop :=
  exists ds c o op, stop_decls attrs ds
    /\ last_value (fun v c => exists q, colour E v q /\ c = stop_color q) "stop-color" None ds c
    /\ last_value is_fraction "offset" (fnum E 0) ds o
    /\ last_value (is_number E) "stop-opacity" (fnum E 1) ds op
    /\ s = mkStop c o op.

(** the gradient is known under its id, if it has one *)
Definition declare (id : option string) (g : gradient E) (grads : string -> option (gradient E)) : string -> option (gradient E) :=
  match id with Some i => set grads i g | None => grads end.
Definition attr_id (attrs : list attr) (id : option string) : Prop :=
  match id with Some s => attr_once "id" attrs s | None => has_attr "id" attrs = false end.
(** the children of a gradient element: stops, which see the gradient made so far under its id *)
Definition add_stop (s : gradStop E) (g : gradient E) : gradient E :=
  mkGrad (gDirection g) (gStops g ++ [s]) (gBounds g) (gMatrix g) (gSpread g) (gUnits g).
Inductive grad_kids (id : option string) (grads : string -> option (gradient E)) (par : style E) : list node -> gradient E -> gradient E -> Prop :=
| gk_nil g : grad_kids id grads par [] g g
| gk_chars s r g g' : grad_kids id grads par r g g' -> grad_kids id grads par (Chars s :: r) g g'
| gk_misc r g g' : grad_kids id grads par r g g' -> grad_kids id grads par (Misc :: r) g g'
| gk_stop attrs kids t st s r g g' :
    styled vb (declare id g grads) par attrs st -> text_of kids = Some t -> is_stop attrs s ->
    grad_kids id grads par r (add_stop s g) g' ->
    grad_kids id grads par (Elem "stop" attrs kids :: r) g g'.
(** the attributes of the stop elements among the children *)
Definition stop_elements (kids : list node) : list (list attr) :=
  flat_map (fun n => match n with Elem "stop" attrs _ => [attrs] | _ => [] end) kids.
(** a gradient element *)
Inductive grad_elem (par : style E) : node -> world -> world -> Prop :=
| ge name attrs kids st id g g' w :
    styled vb (w_grads w) par attrs st -> gradient_of name (part_of Transform st) attrs [] g -> attr_id attrs id ->
    grad_kids id (w_grads w) st kids g g' ->
    grad_elem par (Elem name attrs kids) w (with_grads (declare id g' (w_grads w)) w).

(** ** Definitions: elements with an id, and gradients *)
Definition id_of (n : node) : string := match n with Elem _ attrs _ => text_attr "id" "" attrs | _ => EmptyString end.
(** an element of a definition; inside groups nothing has an id *)
Inductive def_node (grads : string -> option (gradient E)) (par : style E) : node -> dtree -> Prop :=
| dn_elem name attrs kids t st :
    styled vb grads par attrs st -> List.In name ("use"%string :: shape_names) -> text_of kids = Some t ->
    def_node grads par (Elem name attrs kids) (DElem name attrs)
| dn_group attrs kids st ts :
    styled vb grads par attrs st -> def_inner grads st kids ts ->
    def_node grads par (Elem "g" attrs kids) (DGroup attrs ts)
with def_inner (grads : string -> option (gradient E)) (par : style E) : list node -> list dtree -> Prop :=
| di_nil : def_inner grads par [] []
| di_chars s r ts : def_inner grads par r ts -> def_inner grads par (Chars s :: r) ts
| di_misc r ts : def_inner grads par r ts -> def_inner grads par (Misc :: r) ts
| di_cons n t r ts : id_of n = EmptyString -> def_node grads par n t -> def_inner grads par r ts -> def_inner grads par (n :: r) (t :: ts).
(** the children of a defs element; [cur] is the id of the last definition.  An element without an
    id belongs to the definition before it. *)
Inductive def_kids (par : style E) : option string -> list node -> world -> world -> Prop :=
| dk_nil cur w : def_kids par cur [] w w
| dk_chars cur s r w w' : def_kids par cur r w w' -> def_kids par cur (Chars s :: r) w w'
| dk_misc cur r w w' : def_kids par cur r w w' -> def_kids par cur (Misc :: r) w w'
| dk_grad cur n r w w1 w' : grad_elem par n w w1 -> def_kids par cur r w1 w' -> def_kids par cur (n :: r) w w'
| dk_new cur n t r w w' :
    def_node (w_grads w) par n t -> id_of n <> EmptyString \/ cur = None ->
    def_kids par (Some (id_of n)) r (with_defs (set (w_defs w) (id_of n) [t]) w) w' ->
    def_kids par cur (n :: r) w w'
| dk_more id n t ts r w w' :
    def_node (w_grads w) par n t -> id_of n = EmptyString -> w_defs w id = Some ts ->
    def_kids par (Some id) r (with_defs (set (w_defs w) id (ts ++ [t])) w) w' ->
    def_kids par (Some id) (n :: r) w w'.

Definition origin : point E := (fnum E 0, fnum E 0).
(** the shapes drawn by a use, where [defs] are the definitions known, [off] the offset and [par]
    the style around; at most [k] uses are nested.  A use inside the definition has its own offset
    instead of the one around it, and what comes after it is not shifted. *)
Inductive traces (grads : string -> option (gradient E)) (defs : string -> option (list dtree)) :
  nat -> point E -> style E -> list dtree -> list placed -> point E -> Prop :=
| tr_nil k off par : traces grads defs k off par [] [] off
| tr_shape k off par name attrs st ts ps off' :
    styled vb grads par attrs st -> List.In name shape_names -> traces grads defs k off par ts ps off' ->
    traces grads defs k off par (DElem name attrs :: ts) ((off, name, attrs) :: ps) off'
| tr_group k off par attrs kids st ps off1 ts qs off' :
    styled vb grads par attrs st -> traces grads defs k off st kids ps off1 -> traces grads defs k off1 par ts qs off' ->
    traces grads defs k off par (DGroup attrs kids :: ts) (ps ++ qs) off'
| tr_use k off par attrs st id x y us ps off1 ts qs off' :
    styled vb grads par attrs st ->
    text_attr "href" "" attrs = ("#" ++ id)%string ->
    length_attr vb OfWidth "x" attrs x -> length_attr vb OfHeight "y" attrs y ->
    defs id = Some us -> traces grads defs k (x, y) st us ps off1 ->
    traces grads defs (S k) origin par ts qs off' ->
    traces grads defs (S k) off par (DElem "use" attrs :: ts) (ps ++ qs) off'.

(** ** Masks *)
Definition mask_head (attrs : list attr) (id : string) (b : mask_box) : Prop :=
  let '(x, y, w, h) := b in
  value_attr (fun s i => s <> EmptyString /\ i = s) "id" EmptyString attrs id
  /\ length_attr vb OfWidth "x" attrs x /\ length_attr vb OfHeight "y" attrs y
  /\ length_attr vb OfWidth "width" attrs w /\ length_attr vb OfHeight "height" attrs h.

(** ** Drawing: a figure with an empty outline is not drawn *)
(** the path [p'] is what the shapes make of the path [p] *)
Inductive outlines : path -> list placed -> path -> Prop :=
| ol_nil p : outlines p [] p
| ol_cons p off name attrs q r p' :
    SH vb off name attrs q -> outlines (joined name attrs p q) r p' -> outlines p ((off, name, attrs) :: r) p'.
Definition draws_figure (f : figure) (w w' : world) : Prop :=
  exists p, outlines [] (fg_shapes f) p
    /\ w' = match p with [] => w | _ => with_figs (w_figs w ++ [f]) w end.

Inductive sem (par : style E) : node -> world -> world -> Prop :=
| sem_chars s w : sem par (Chars s) w w
| sem_misc w : sem par Misc w w
| sem_shape name attrs kids st w w1 w2 :
    styled vb (w_grads w) par attrs st -> draws_figure (mkFig [(origin, name, attrs)] st) w w1 -> sems st kids w1 w2 ->
    sem par (Elem name attrs kids) w w2
| sem_group name attrs kids st w w' :                (* unsupported elements are transparent unless errors are strict *)
    name = "g"%string \/ (lenient = true /\ ~ List.In name known_names) ->
    styled vb (w_grads w) par attrs st -> sems st kids w w' ->
    sem par (Elem name attrs kids) w w'
| sem_title attrs kids st t w :
    styled vb (w_grads w) par attrs st -> text_of kids = Some t ->
    sem par (Elem "title" attrs kids) w (with_titles (w_titles w ++ [t]) w)
| sem_desc attrs kids st t w :
    styled vb (w_grads w) par attrs st -> text_of kids = Some t ->
    sem par (Elem "desc" attrs kids) w (with_descs (w_descs w ++ [t]) w)
| sem_gradient n w w' : grad_elem par n w w' -> sem par n w w'
| sem_defs attrs kids st w w' :
    styled vb (w_grads w) par attrs st -> def_kids st None kids w w' ->
    sem par (Elem "defs" attrs kids) w w'
| sem_mask attrs kids st id b w w' :
    styled vb (w_grads w) par attrs st -> mask_head attrs id b -> existsb (mentions "mask") kids = false ->
    sems st kids (with_figs [] w) w' ->
    sem par (Elem "mask" attrs kids) w (with_masks (set (w_masks w') id (b, w_figs w')) (with_figs (w_figs w) w'))
| sem_use attrs kids st id x y ts ps off w w1 w2 :
    styled vb (w_grads w) par attrs st ->
    text_attr "href" "" attrs = ("#" ++ id)%string ->
    length_attr vb OfWidth "x" attrs x -> length_attr vb OfHeight "y" attrs y ->
    w_defs w id = Some ts -> traces (w_grads w) (w_defs w) dep (x, y) st ts ps off ->
    draws_figure (mkFig ps st) w w1 -> sems st kids w1 w2 ->
    sem par (Elem "use" attrs kids) w w2
with sems (par : style E) : list node -> world -> world -> Prop :=
| sems_nil w : sems par [] w w
| sems_cons n r w w1 w2 : sem par n w w1 -> sems par r w1 w2 -> sems par (n :: r) w w2.
End Tree.

(** How the parser keeps definitions: as flat lists in which groups are bracketed by "g" and "endg".
    [bare] forgets the ids of the elements. *)
Definition bare (d : definition) : string * list attr := (d_tag d, d_attrs d).
Fixpoint flat (t : dtree) : list (string * list attr) :=
  match t with DElem name attrs => [(name, attrs)] | DGroup attrs kids => ("g"%string, attrs) :: flat_map flat kids ++ [("endg"%string, [])] end.
Definition defs_agree (ds : string -> option (list dtree)) (m : smap (list definition)) : Prop :=
  forall id ts, ds id = Some ts -> exists l, mget id m = Some l /\ map bare l = flat_map flat ts.

(** The drawing functions draw the elements of [SH] as it says: from every parser state in error mode [md] with
    that view box and offset and no unfinished path, with recursion depth at least [m], the element draws
    some outline that [SH] allows, and nothing else changes but the numbers in the path cursor. *)
Definition faithful {E : Env} (md : errorMode) (m : nat) (SH : bounds E -> point E -> string -> list attr -> path -> Prop) : Prop :=
  forall fuel vb off name attrs p0 (c : cursor E), m <= fuel -> SH vb off name attrs p0 ->
    List.In name shape_names
    /\ (pc_mode (c_pc c) = md -> sv_viewBox (c_svg c) = vb -> offset c = off -> pc_path (c_pc c) = [] ->
        exists df pc', drawFuncs fuel name = Some df /\ df attrs c = (c_set_pc pc' c, Ret tt)
          /\ (pc_curX pc', pc_curY pc') = off /\ pc_mode pc' = md
          /\ SH vb off name attrs (pc_path pc') /\ (pc_path pc' = [] <-> p0 = [])).

(** ** Whole documents *)
(** the style of the root's parent: opaque black fill, no stroke (width 2, bevel joins, butt caps, miter limit 4) *)
Definition initial (E : Env) (p : part) : part_type E p :=
  match p with
  | FillOpacity | StrokeOpacity => fnum E 1
  | StrokeWidth => fnum E 2
  | FillRule => true
  | MiterLimit => f_to_i32 E (fmul E (fnum E 4) (fnum E 64))
  | LineJoin => Bevel
  | LineCap => ButtCap
  | LeadLineCap => NilCap
  | LineGap => NilGap
  | DashArray => []
  | DashOffset => fnum E 0
  | FillPaint => Some (PPlain 0 0 0 255)
  | StrokePaint => None
  | MaskList => mkSl 0 0 0
  | Transform => mkM (fnum E 1) (fnum E 0) (fnum E 0) (fnum E 1) (fnum E 0) (fnum E 0)
  end.
Definition initial_style (E : Env) : style E := build E (initial E).
Section Document.
Context (E : Env) (SH : bounds E -> point E -> string -> list attr -> path -> Prop).
Definition no_box : bounds E := mkB (fnum E 0) (fnum E 0) (fnum E 0) (fnum E 0).
(** The document [ns] has one root element <svg> and denotes the view box [vb] and the world [w].
    Lengths in the style attributes of the root refer to an empty view box.  The uses inside
    definitions are nested at most [dep] deep. *)
Definition document (lenient : bool) (dep : nat) (ns : list node) (vb : bounds E) (w : world E) : Prop :=
  exists pre attrs kids post st t u,
    ns = pre ++ Elem "svg" attrs kids :: post /\ text_of pre = Some t /\ text_of post = Some u
    /\ styled E no_box (fun _ => None) (initial_style E) attrs st /\ view_box attrs vb
    /\ sems E SH vb lenient dep st kids (world0 E) w.
(** [sp] is the figure [f] *)
Definition drawn (vb : bounds E) (f : figure E) (sp : svgPath E) : Prop :=
  sp_style sp = fg_style E f /\ sp_path sp <> [] /\ outlines E SH vb [] (fg_shapes E f) (sp_path sp).
Definition mask_drawn (vb : bounds E) (id : string) (m : mask_box E * list (figure E)) (mk : svgMask E) : Prop :=
  mk_id mk = id /\ (mk_x mk, mk_y mk, mk_w mk, mk_h mk) = fst m /\ Forall2 (drawn vb) (snd m) (mk_paths mk).
(** the parsed [s] shows the world [w] *)
Definition shows (vb : bounds E) (w : world E) (s : svg E) : Prop :=
  sv_viewBox s = vb /\ sv_titles s = w_titles E w /\ sv_descs s = w_descs E w
  /\ Forall2 (drawn vb) (w_figs E w) (sv_paths s)
  /\ forall id, match w_masks E w id, mget id (sv_masks s) with
                | Some m, Some mk => mask_drawn vb id m mk
                | None, None => True
                | _, _ => False
                end.
End Document.

(** * Cursor: types.go, mask.go, the data types of svg.go, patterns.go, styles.go, parse.go *)
From Verif Require Export PathCur.

(** ** types.go *)
(** types.go:18-25 *)
Inductive joinMode := Arc | Round | Bevel | Miter | MiterClip | ArcClip.
(** types.go:49-56 *)
Inductive capMode := NilCap | ButtCap | SquareCap | RoundCap | CubicCap | QuadraticCap.
(** types.go:81-87 *)
Inductive gapMode := NilGap | FlatGap | RoundGap | CubicGap | QuadraticGap.

(** types.go:27-44, 58-75, 89-104 String; the defaults are for numbers outside the lists of
    constants, which the types here do not have *)
Definition joinString (m : joinMode) : string :=
  match m with
  | Round => "Round" | Bevel => "Bevel" | Miter => "Miter" | MiterClip => "MiterClip"
  | Arc => "Arc" | ArcClip => "ArcClip"
  end.
Definition capString (m : capMode) : string :=
  match m with
  | NilCap => "NilCap" | ButtCap => "ButtCap" | SquareCap => "SquareCap" | RoundCap => "RoundCap"
  | CubicCap => "CubicCap" | QuadraticCap => "QuadraticCap"
  end.
Definition gapString (m : gapMode) : string :=
  match m with
  | NilGap => "NilGap" | FlatGap => "FlatGap" | RoundGap => "RoundGap" | CubicGap => "CubicGap"
  | QuadraticGap => "QuadraticGap"
  end.

(** types.go:106-113 JoinOptions *)
Record joinOptions := mkJoin {
  jMiterLimit : Z; jLineJoin : joinMode; jTrailLineCap : capMode;
  jLeadLineCap : capMode; jLineGap : gapMode }.

(** ** patterns.go *)
(** the values stored in an image/color.Color interface here: a PlainColor (color.NRGBA,
    patterns.go:21-23) or an entry of the colornames package (color.RGBA) *)
Inductive color := CNRGBA (r g b a : Z) | CRGBA (r g b a : Z).
(** patterns.go:147-153 *)
Inductive gradUnits := ObjectBoundingBox | UserSpaceOnUse.
(** patterns.go:156-163 *)
Inductive spreadMethod := PadSpread | ReflectSpread | RepeatSpread.

(** patterns.go:166-170; [None] is a nil StopColor *)
Record gradStop (E : Env) := mkStop { stColor : option color; stOffset : F E; stOpacity : F E }.
Arguments mkStop {E}. Arguments stColor {E}. Arguments stOffset {E}. Arguments stOpacity {E}.

(** patterns.go:203-215 gradientDirecter: Linear x1 y1 x2 y2, Radial cx cy fx fy r fr *)
Inductive direction (E : Env) :=
| Linear (x1 y1 x2 y2 : F E)
| Radial (cx cy fx fy r fr : F E).
Arguments Linear {E}. Arguments Radial {E}.

(** patterns.go:173-180; [None] is a nil Direction.  Stops is a slice, but no element of it is
    ever overwritten in place (patterns.go:240 copies it first), so a list models it. *)
Record gradient (E : Env) := mkGrad {
  gDirection : option (direction E); gStops : list (gradStop E); gBounds : bounds E;
  gMatrix : matrix E; gSpread : spreadMethod; gUnits : gradUnits }.
Arguments mkGrad {E}. Arguments gDirection {E}. Arguments gStops {E}. Arguments gBounds {E}.
Arguments gMatrix {E}. Arguments gSpread {E}. Arguments gUnits {E}.

(** patterns.go:15-30 Pattern; a nil Pattern is [None] at the use sites *)
Inductive pattern (E : Env) :=
| PPlain (r g b a : Z)
| PGrad (g : gradient E).
Arguments PPlain {E}. Arguments PGrad {E}.

(** A []string slice header: backing array (an address in [sv_mheap]), length, capacity *)
Record sslice := mkSl { sl_arr : nat; sl_len : nat; sl_cap : nat }.

(** svg.go:16-28 PathStyle *)
Record style (E : Env) := mkStyle {
  st_fillOpacity : F E; st_lineOpacity : F E; st_lineWidth : F E;
  st_nonZero : bool;
  st_join : joinOptions;
  st_dash : list (F E); st_dashOffset : F E;
  st_filler : option (pattern E); st_liner : option (pattern E);
  st_masks : sslice;
  st_transform : matrix E }.
Arguments mkStyle {E}. Arguments st_fillOpacity {E}. Arguments st_lineOpacity {E}.
Arguments st_lineWidth {E}. Arguments st_nonZero {E}. Arguments st_join {E}. Arguments st_dash {E}.
Arguments st_dashOffset {E}. Arguments st_filler {E}. Arguments st_liner {E}.
Arguments st_masks {E}. Arguments st_transform {E}.

(** svg.go:31-34 SvgPath *)
Record svgPath (E : Env) := mkSvgPath { sp_path : path; sp_style : style E }.
Arguments mkSvgPath {E}. Arguments sp_path {E}. Arguments sp_style {E}.

(** mask.go:4-12 SvgMask *)
Record svgMask (E : Env) := mkMask {
  mk_id : string; mk_x : F E; mk_y : F E; mk_w : F E; mk_h : F E;
  mk_paths : list (svgPath E); mk_transform : matrix E }.
Arguments mkMask {E}. Arguments mk_id {E}. Arguments mk_x {E}. Arguments mk_y {E}.
Arguments mk_w {E}. Arguments mk_h {E}. Arguments mk_paths {E}. Arguments mk_transform {E}.

(** xml.Attr: only Name.Local and Value are read by the code *)
Record attr := mkAttr { a_name : string; a_val : string }.

(** parse.go:27-30 definition *)
Record definition := mkDef { d_id : string; d_tag : string; d_attrs : list attr }.

(** svg.go:42-54 Svg; [sv_mheap] is the memory holding the backing arrays of the Masks slices.
    A gradient pointer is an index into [c_gheap]. *)
Record svg (E : Env) := mkSvg {
  sv_viewBox : bounds E;
  sv_titles : list string; sv_descs : list string;
  sv_paths : list (svgPath E);
  sv_transform : matrix E;
  sv_masks : smap (svgMask E);
  sv_width : string; sv_height : string;
  sv_grads : smap nat;
  sv_defs : smap (list definition);
  sv_mheap : list (list string) }.
Arguments mkSvg {E}. Arguments sv_viewBox {E}. Arguments sv_titles {E}. Arguments sv_descs {E}.
Arguments sv_paths {E}. Arguments sv_transform {E}. Arguments sv_masks {E}. Arguments sv_width {E}.
Arguments sv_height {E}. Arguments sv_grads {E}. Arguments sv_defs {E}. Arguments sv_mheap {E}.

(** parse.go:16-24 svgCursor.  [c_stack]: the style stack, top first (Go: top last).
    [c_grad]: the pointer grad (index into c_gheap, nil = None).
    [c_mask]: the mask being built.  Its pointer is stored in SvgMasks only when c.mask is set
    to nil (svg.go:109-110), so it is modelled by value. *)
Record cursor (E : Env) := mkCur {
  c_pc : pcur E;
  c_svg : svg E;
  c_stack : list (style E);
  c_grad : option nat;
  c_gheap : list (gradient E);
  c_inTitle : bool; c_inDesc : bool; c_inGrad : bool; c_inDefs : bool; c_inMask : bool;
  c_curDef : list definition;
  c_mask : option (svgMask E) }.
Arguments mkCur {E}. Arguments c_pc {E}. Arguments c_svg {E}. Arguments c_stack {E}.
Arguments c_grad {E}. Arguments c_gheap {E}. Arguments c_inTitle {E}. Arguments c_inDesc {E}.
Arguments c_inGrad {E}. Arguments c_inDefs {E}. Arguments c_inMask {E}. Arguments c_curDef {E}.
Arguments c_mask {E}.

Section Cursor.
Context {E : Env}.
Notation F := (F E).
Notation "# z" := (fnum E z%Z) (at level 1, format "# z").
Notation cursor := (cursor E).
Notation svg := (svg E).
Notation style := (style E).
Notation pattern := (pattern E).
Notation gradient := (gradient E).

(** field assignments *)
Definition sv_set_viewBox v (s : svg) : svg := mkSvg v (sv_titles s) (sv_descs s) (sv_paths s) (sv_transform s) (sv_masks s) (sv_width s) (sv_height s) (sv_grads s) (sv_defs s) (sv_mheap s).
Definition sv_set_titles v (s : svg) : svg := mkSvg (sv_viewBox s) v (sv_descs s) (sv_paths s) (sv_transform s) (sv_masks s) (sv_width s) (sv_height s) (sv_grads s) (sv_defs s) (sv_mheap s).
Definition sv_set_descs v (s : svg) : svg := mkSvg (sv_viewBox s) (sv_titles s) v (sv_paths s) (sv_transform s) (sv_masks s) (sv_width s) (sv_height s) (sv_grads s) (sv_defs s) (sv_mheap s).
Definition sv_set_paths v (s : svg) : svg := mkSvg (sv_viewBox s) (sv_titles s) (sv_descs s) v (sv_transform s) (sv_masks s) (sv_width s) (sv_height s) (sv_grads s) (sv_defs s) (sv_mheap s).
Definition sv_set_masks v (s : svg) : svg := mkSvg (sv_viewBox s) (sv_titles s) (sv_descs s) (sv_paths s) (sv_transform s) v (sv_width s) (sv_height s) (sv_grads s) (sv_defs s) (sv_mheap s).
Definition sv_set_width v (s : svg) : svg := mkSvg (sv_viewBox s) (sv_titles s) (sv_descs s) (sv_paths s) (sv_transform s) (sv_masks s) v (sv_height s) (sv_grads s) (sv_defs s) (sv_mheap s).
Definition sv_set_height v (s : svg) : svg := mkSvg (sv_viewBox s) (sv_titles s) (sv_descs s) (sv_paths s) (sv_transform s) (sv_masks s) (sv_width s) v (sv_grads s) (sv_defs s) (sv_mheap s).
Definition sv_set_grads v (s : svg) : svg := mkSvg (sv_viewBox s) (sv_titles s) (sv_descs s) (sv_paths s) (sv_transform s) (sv_masks s) (sv_width s) (sv_height s) v (sv_defs s) (sv_mheap s).
Definition sv_set_defs v (s : svg) : svg := mkSvg (sv_viewBox s) (sv_titles s) (sv_descs s) (sv_paths s) (sv_transform s) (sv_masks s) (sv_width s) (sv_height s) (sv_grads s) v (sv_mheap s).
Definition sv_set_mheap v (s : svg) : svg := mkSvg (sv_viewBox s) (sv_titles s) (sv_descs s) (sv_paths s) (sv_transform s) (sv_masks s) (sv_width s) (sv_height s) (sv_grads s) (sv_defs s) v.

Definition c_set_pc v (c : cursor) : cursor := mkCur v (c_svg c) (c_stack c) (c_grad c) (c_gheap c) (c_inTitle c) (c_inDesc c) (c_inGrad c) (c_inDefs c) (c_inMask c) (c_curDef c) (c_mask c).
Definition c_set_svg v (c : cursor) : cursor := mkCur (c_pc c) v (c_stack c) (c_grad c) (c_gheap c) (c_inTitle c) (c_inDesc c) (c_inGrad c) (c_inDefs c) (c_inMask c) (c_curDef c) (c_mask c).
Definition c_set_stack v (c : cursor) : cursor := mkCur (c_pc c) (c_svg c) v (c_grad c) (c_gheap c) (c_inTitle c) (c_inDesc c) (c_inGrad c) (c_inDefs c) (c_inMask c) (c_curDef c) (c_mask c).
Definition c_set_grad v (c : cursor) : cursor := mkCur (c_pc c) (c_svg c) (c_stack c) v (c_gheap c) (c_inTitle c) (c_inDesc c) (c_inGrad c) (c_inDefs c) (c_inMask c) (c_curDef c) (c_mask c).
Definition c_set_gheap v (c : cursor) : cursor := mkCur (c_pc c) (c_svg c) (c_stack c) (c_grad c) v (c_inTitle c) (c_inDesc c) (c_inGrad c) (c_inDefs c) (c_inMask c) (c_curDef c) (c_mask c).
Definition c_set_inTitle v (c : cursor) : cursor := mkCur (c_pc c) (c_svg c) (c_stack c) (c_grad c) (c_gheap c) v (c_inDesc c) (c_inGrad c) (c_inDefs c) (c_inMask c) (c_curDef c) (c_mask c).
Definition c_set_inDesc v (c : cursor) : cursor := mkCur (c_pc c) (c_svg c) (c_stack c) (c_grad c) (c_gheap c) (c_inTitle c) v (c_inGrad c) (c_inDefs c) (c_inMask c) (c_curDef c) (c_mask c).
Definition c_set_inGrad v (c : cursor) : cursor := mkCur (c_pc c) (c_svg c) (c_stack c) (c_grad c) (c_gheap c) (c_inTitle c) (c_inDesc c) v (c_inDefs c) (c_inMask c) (c_curDef c) (c_mask c).
Definition c_set_inDefs v (c : cursor) : cursor := mkCur (c_pc c) (c_svg c) (c_stack c) (c_grad c) (c_gheap c) (c_inTitle c) (c_inDesc c) (c_inGrad c) v (c_inMask c) (c_curDef c) (c_mask c).
Definition c_set_inMask v (c : cursor) : cursor := mkCur (c_pc c) (c_svg c) (c_stack c) (c_grad c) (c_gheap c) (c_inTitle c) (c_inDesc c) (c_inGrad c) (c_inDefs c) v (c_curDef c) (c_mask c).
Definition c_set_curDef v (c : cursor) : cursor := mkCur (c_pc c) (c_svg c) (c_stack c) (c_grad c) (c_gheap c) (c_inTitle c) (c_inDesc c) (c_inGrad c) (c_inDefs c) (c_inMask c) v (c_mask c).
Definition c_set_mask v (c : cursor) : cursor := mkCur (c_pc c) (c_svg c) (c_stack c) (c_grad c) (c_gheap c) (c_inTitle c) (c_inDesc c) (c_inGrad c) (c_inDefs c) (c_inMask c) (c_curDef c) v.

Definition s_set_fillOpacity v (s : style) : style := mkStyle v (st_lineOpacity s) (st_lineWidth s) (st_nonZero s) (st_join s) (st_dash s) (st_dashOffset s) (st_filler s) (st_liner s) (st_masks s) (st_transform s).
Definition s_set_lineOpacity v (s : style) : style := mkStyle (st_fillOpacity s) v (st_lineWidth s) (st_nonZero s) (st_join s) (st_dash s) (st_dashOffset s) (st_filler s) (st_liner s) (st_masks s) (st_transform s).
Definition s_set_lineWidth v (s : style) : style := mkStyle (st_fillOpacity s) (st_lineOpacity s) v (st_nonZero s) (st_join s) (st_dash s) (st_dashOffset s) (st_filler s) (st_liner s) (st_masks s) (st_transform s).
Definition s_set_nonZero v (s : style) : style := mkStyle (st_fillOpacity s) (st_lineOpacity s) (st_lineWidth s) v (st_join s) (st_dash s) (st_dashOffset s) (st_filler s) (st_liner s) (st_masks s) (st_transform s).
Definition s_set_join v (s : style) : style := mkStyle (st_fillOpacity s) (st_lineOpacity s) (st_lineWidth s) (st_nonZero s) v (st_dash s) (st_dashOffset s) (st_filler s) (st_liner s) (st_masks s) (st_transform s).
Definition s_set_dash v (s : style) : style := mkStyle (st_fillOpacity s) (st_lineOpacity s) (st_lineWidth s) (st_nonZero s) (st_join s) v (st_dashOffset s) (st_filler s) (st_liner s) (st_masks s) (st_transform s).
Definition s_set_dashOffset v (s : style) : style := mkStyle (st_fillOpacity s) (st_lineOpacity s) (st_lineWidth s) (st_nonZero s) (st_join s) (st_dash s) v (st_filler s) (st_liner s) (st_masks s) (st_transform s).
Definition s_set_filler v (s : style) : style := mkStyle (st_fillOpacity s) (st_lineOpacity s) (st_lineWidth s) (st_nonZero s) (st_join s) (st_dash s) (st_dashOffset s) v (st_liner s) (st_masks s) (st_transform s).
Definition s_set_liner v (s : style) : style := mkStyle (st_fillOpacity s) (st_lineOpacity s) (st_lineWidth s) (st_nonZero s) (st_join s) (st_dash s) (st_dashOffset s) (st_filler s) v (st_masks s) (st_transform s).
Definition s_set_masks v (s : style) : style := mkStyle (st_fillOpacity s) (st_lineOpacity s) (st_lineWidth s) (st_nonZero s) (st_join s) (st_dash s) (st_dashOffset s) (st_filler s) (st_liner s) v (st_transform s).
Definition s_set_transform v (s : style) : style := mkStyle (st_fillOpacity s) (st_lineOpacity s) (st_lineWidth s) (st_nonZero s) (st_join s) (st_dash s) (st_dashOffset s) (st_filler s) (st_liner s) (st_masks s) v.

Definition j_set_miter v (j : joinOptions) := mkJoin v (jLineJoin j) (jTrailLineCap j) (jLeadLineCap j) (jLineGap j).
Definition j_set_join v (j : joinOptions) := mkJoin (jMiterLimit j) v (jTrailLineCap j) (jLeadLineCap j) (jLineGap j).
Definition j_set_trail v (j : joinOptions) := mkJoin (jMiterLimit j) (jLineJoin j) v (jLeadLineCap j) (jLineGap j).
Definition j_set_lead v (j : joinOptions) := mkJoin (jMiterLimit j) (jLineJoin j) (jTrailLineCap j) v (jLineGap j).
Definition j_set_gap v (j : joinOptions) := mkJoin (jMiterLimit j) (jLineJoin j) (jTrailLineCap j) (jLeadLineCap j) v.

(** types.go:123-136 DefaultStyle.  Its Masks slice, make([]string, 0), is the array at address 0
    with capacity 0. *)
Definition defaultStyle : style :=
  mkStyle #1 #1 #2 true (mkJoin (fToFixed #4) Bevel ButtCap NilCap NilGap)
          [] #0 (Some (PPlain 0 0 0 255)) None (mkSl 0 0 0) identity.

Definition C := M cursor.
Definition liftP {A} (m : M (pcur E) A) : C A := fun c =>
  let (p, o) := m (c_pc c) in (c_set_pc p c, o).
Definition onSvg (f : svg -> svg) : C unit := modify (fun c => c_set_svg (f (c_svg c)) c).
Fixpoint foldM {S A L} (f : L -> A -> M S L) (l : L) (xs : list A) : M S L :=
  match xs with
  | [] => ret l
  | x :: r => l' <- f l x ;; foldM f l' r
  end.

(** c.styleStack[len(c.styleStack)-1] *)
Definition topStyle : C style := fun c =>
  match c_stack c with [] => (c, Panic) | s :: _ => (c, Ret s) end.
(** c.styleStack = c.styleStack[:len(c.styleStack)-1] *)
Definition popStyle : C unit := fun c =>
  match c_stack c with [] => (c, Panic) | _ :: r => (c_set_stack r c, Ret tt) end.

(** ** Slices of mask names *)
(** the strings visible through a slice header *)
Definition slice_read (h : list (list string)) (s : sslice) : list string :=
  firstn (sl_len s) (nth (sl_arr s) h []).
Fixpoint set_nth {A} (l : list A) (i : nat) (a : A) : list A :=
  match l, i with
  | [], _ => []
  | _ :: t, O => a :: t
  | h :: t, S j => h :: set_nth t j a
  end.
(** append(s, id): write in place when there is spare capacity, otherwise copy to a new array *)
Definition appendStr (s : sslice) (id : string) : C sslice := fun c =>
  let h := sv_mheap (c_svg c) in
  if sl_len s <? sl_cap s then
    let h' := set_nth h (sl_arr s) (set_nth (nth (sl_arr s) h []) (sl_len s) id) in
    (c_set_svg (sv_set_mheap h' (c_svg c)) c, Ret (mkSl (sl_arr s) (sl_len s + 1) (sl_cap s)))
  else
    let newcap := Nat.max (sl_len s + 1) (growcap E (sl_cap s)) in
    let arr := slice_read h s ++ id :: repeat EmptyString (newcap - (sl_len s + 1)) in
    (c_set_svg (sv_set_mheap (h ++ [arr]) (c_svg c)) c,
     Ret (mkSl (List.length h) (sl_len s + 1) newcap)).

(** ** patterns.go *)

(** patterns.go:103-116 parseColorValue *)
Definition parseColorValue (v : string) : outcome Z :=
  last <~ (match String.length v with O => Panic | S n => byteat v n end) ;;
  if Ascii.eqb last "%" then
    body <~ slice v 0 (String.length v - 1) ;;
    n <~ atoi (trimSpace body) ;;
    Ret (uint8 (Z.quot (wrap64 (n * 255)) 100))
  else
    n <~ atoi (trimSpace v) ;;
    Ret (uint8 (if (255 <? n)%Z then 255%Z else n)).

(** patterns.go:119-144 parseSVGColorNum *)
Definition parseSVGColorNum (colorStr : string) : outcome (Z * Z * Z) :=
  let s := trimPrefix colorStr "#" in
  s <~ (if String.length s =? 6 then Ret s
        else
          a <~ byteat s 0 ;; b <~ byteat s 1 ;; c <~ byteat s 2 ;;
          Ret (string_of_list_ascii [a; a; b; b; c; c])) ;;
  s0 <~ slice s 0 2 ;; s1 <~ slice s 2 4 ;; s2 <~ slice s 4 6 ;;
  r <~ parseUint16_8 s0 ;;
  g <~ parseUint16_8 s1 ;;
  b <~ parseUint16_8 s2 ;;
  Ret (r, g, b).

(** patterns.go:58-101 parseSVGColor; the result [None] is the invalid optionnalColor ("none"). *)
Definition parseSVGColor (colorStr : string) : outcome (option (Z * Z * Z * Z)) :=
  let v := toLower E colorStr in
  if hasPrefix v "url" then Ret (Some (0, 0, 0, 255)%Z)
  else if String.eqb v "none" then Ret None
  else match colorname E v with
  | Some (r, g, b, a) => Ret (Some (r, g, b, a))
  | None =>
    let cStr := trimPrefix colorStr "rgb(" in
    if negb (String.eqb cStr colorStr) then
      let vals := split1 "," (trimSuffix cStr ")") in
      match vals with
      | [v0; v1; v2] =>
        r <~ parseColorValue v0 ;;
        g <~ parseColorValue v1 ;;
        b <~ parseColorValue v2 ;;
        Ret (Some (r, g, b, 255%Z))
      | _ => Err ErrParamMismatch
      end
    else
      c0 <~ byteat colorStr 0 ;;
      if Ascii.eqb c0 "#" then
        '(r, g, b) <~ parseSVGColorNum colorStr ;;
        Ret (Some (r, g, b, 255%Z))
      else Err ErrParamMismatch
  end.

(** patterns.go:42-54 asColor, asPattern *)
Definition asColor (o : option (Z * Z * Z * Z)) : option color :=
  match o with Some (r, g, b, a) => Some (CNRGBA r g b a) | None => None end.
Definition asPattern (o : option (Z * Z * Z * Z)) : option pattern :=
  match o with Some (r, g, b, a) => Some (PPlain r g b a) | None => None end.

(** colornames.Black *)
Definition black : color := CRGBA 0 0 0 255.

(** patterns.go:219-231 GetColor; [None] is a nil Pattern *)
Fixpoint firstColor (l : list (gradStop E)) : option color :=
  match l with
  | [] => None
  | s :: r => match stColor s with Some c => Some c | None => firstColor r end
  end.
Definition getColor (clr : option pattern) : color :=
  match clr with
  | Some (PGrad g) => match firstColor (gStops g) with Some c => c | None => black end
  | Some (PPlain r g b a) => CNRGBA r g b a
  | None => black
  end.

Definition g_set_stops v (g : gradient) : gradient := mkGrad (gDirection g) v (gBounds g) (gMatrix g) (gSpread g) (gUnits g).
Definition g_set_direction v (g : gradient) : gradient := mkGrad v (gStops g) (gBounds g) (gMatrix g) (gSpread g) (gUnits g).
Definition g_set_bounds v (g : gradient) : gradient := mkGrad (gDirection g) (gStops g) v (gMatrix g) (gSpread g) (gUnits g).
Definition g_set_matrix v (g : gradient) : gradient := mkGrad (gDirection g) (gStops g) (gBounds g) v (gSpread g) (gUnits g).
Definition g_set_spread v (g : gradient) : gradient := mkGrad (gDirection g) (gStops g) (gBounds g) (gMatrix g) v (gUnits g).
Definition g_set_units v (g : gradient) : gradient := mkGrad (gDirection g) (gStops g) (gBounds g) (gMatrix g) (gSpread g) v.

(** patterns.go:186-200 ApplyPathExtent: the updated receiver and the returned matrix *)
Definition applyPathExtent (g : gradient) (minX minY maxX maxY : Z) : gradient * matrix E :=
  match gUnits g with
  | ObjectBoundingBox =>
    let mnx := fdiv E (f_of_Z E minX) #64 in
    let mny := fdiv E (f_of_Z E minY) #64 in
    let mxx := fdiv E (f_of_Z E maxX) #64 in
    let mxy := fdiv E (f_of_Z E maxY) #64 in
    let b := mkB mnx mny (fsub E mxx mnx) (fsub E mxy mny) in
    (g_set_bounds b g, mMult (mScale identity (bW b) (bH b)) (gMatrix g))
  | UserSpaceOnUse => (g, gMatrix g)
  end.

(** patterns.go:233-253 localizeGradIfStopClrNil *)
Definition localizeGrad (g : gradient) (defaultColor : option pattern) : gradient :=
  if existsb (fun s => match stColor s with None => true | _ => false end) (gStops g) then
    let clr := getColor defaultColor in
    g_set_stops (map (fun s => match stColor s with
                               | None => mkStop (Some clr) (stOffset s) (stOpacity s)
                               | Some _ => s
                               end) (gStops g)) g
  else g.

(** patterns.go:259-271 readGradURL; [None] is ok = false *)
Definition readGradURL (v : string) (defaultColor : option pattern) : C (option gradient) :=
  if hasPrefix v "url(" && hasSuffix v ")" then
    s <- lift (slice v 4 (String.length v - 1)) ;;
    let urlStr := trimSpace s in
    if hasPrefix urlStr "#" then
      id <- lift (slice urlStr 1 (String.length urlStr)) ;;
      c <- gets (fun c => c) ;;
      match mget id (sv_grads (c_svg c)) with
      | Some ptr =>
        g <- lift (idx (c_gheap c) ptr) ;;
        ret (Some (localizeGrad g defaultColor))
      | None => ret None
      end
    else ret None
  else ret None.

(** ** parse.go *)

(** units.go:82-84 svgCursor.parseUnit *)
Definition cParseUnit (s : string) (asPerc : percRef) : C F := fun c =>
  (c, resolveUnit (sv_viewBox (c_svg c)) s asPerc).

(** parse.go:38-46 handleError, on the formatted message *)
Definition handleError (msg : string) : C unit :=
  m <- gets (fun c => pc_mode (c_pc c)) ;;
  match m with
  | StrictErrorMode => raise (ErrMsg msg)
  | WarnErrorMode => liftP (println msg)
  | IgnoreErrorMode => ret tt
  end.

Definition deg2rad (x : F) : F := fdiv E (fmul E x (fpi E)) #180.

(** parse.go:48-106 readTransformAttr *)
Definition readTransformAttr (m1 : matrix E) (k : string) (pts : list F) : outcome (matrix E) :=
  if String.eqb k "rotate" then
    match pts with
    | [a] => Ret (mRotate m1 (deg2rad a))
    | [a; x; y] =>
      Ret (mTranslate (mRotate (mTranslate m1 x y) (deg2rad a)) (fneg E x) (fneg E y))
    | _ => Err ErrParamMismatch
    end
  else if String.eqb k "translate" then
    match pts with
    | [x] => Ret (mTranslate m1 x x)
    | [x; y] => Ret (mTranslate m1 x y)
    | _ => Err ErrParamMismatch
    end
  else if String.eqb k "skewx" then
    match pts with [a] => Ret (mSkewX m1 (deg2rad a)) | _ => Err ErrParamMismatch end
  else if String.eqb k "skewy" then
    match pts with [a] => Ret (mSkewY m1 (deg2rad a)) | _ => Err ErrParamMismatch end
  else if String.eqb k "scale" then
    match pts with
    | [x] => Ret (mScale m1 x x)
    | [x; y] => Ret (mScale m1 x y)
    | _ => Err ErrParamMismatch
    end
  else if String.eqb k "matrix" then
    match pts with
    | [a; b; c; d; e; f] => Ret (mMult m1 (mkM a b c d e f))
    | _ => Err ErrParamMismatch
    end
  else Err ErrParamMismatch.

(** parse.go:113-130 one step of the loop of parseTransform *)
Definition transformStep (m1 : matrix E) (t0 : string) : C (matrix E) :=
  let t := trimSpace t0 in
  if String.length t =? 0 then ret m1
  else match split1 "(" t with
  | [d0; d1] =>
    if String.length d1 <? 1 then raise ErrParamMismatch
    else
      liftP (getPoints d1) ;;
      pts <- gets (fun c => pc_points (c_pc c)) ;;
      lift (readTransformAttr m1 (toLower E (trimSpace d0)) pts)
  | _ => raise ErrParamMismatch
  end.
(** parse.go:108-132 parseTransform: i runs from len(ts)-1 down to 0 *)
Definition parseTransform (v : string) : C (matrix E) :=
  top <- topStyle ;;
  foldM transformStep (st_transform top) (rev (split1 ")" v)).

(** parse.go:134-150 parseSelector *)
Definition parseSelector (v : string) : outcome string :=
  if (String.length v =? 0) || String.eqb v "none" then Ret EmptyString
  else if hasPrefix v "url(" then
    match String.index 0 ")" v with
    | None => Err ErrParamMismatch
    | Some i =>
      v <~ slice v 4 i ;;
      if negb (hasPrefix v "#") then Err (ErrMsg ("unsupported url selector: " ++ v)%string)
      else slice v 1 (String.length v)
    end
  else Err (ErrMsg ("unsupported selector: " ++ v)%string).

Definition unsupported (v elt : string) : string :=
  ("unsupported value '" ++ v ++ "' for <" ++ elt ++ ">")%string.

(** parse.go:196-225 the values of stroke-leadlinecap and stroke-linecap *)
Definition capOf (v : string) : option capMode :=
  if String.eqb v "butt" then Some ButtCap
  else if String.eqb v "round" then Some RoundCap
  else if String.eqb v "square" then Some SquareCap
  else if String.eqb v "cubic" then Some CubicCap
  else if String.eqb v "quadratic" then Some QuadraticCap
  else None.
(** parse.go:183-195 *)
Definition gapOf (v : string) : option gapMode :=
  if String.eqb v "flat" then Some FlatGap
  else if String.eqb v "round" then Some RoundGap
  else if String.eqb v "cubic" then Some CubicGap
  else if String.eqb v "quadratic" then Some QuadraticGap
  else None.
(** parse.go:226-242 *)
Definition joinOf (v : string) : option joinMode :=
  if String.eqb v "miter" then Some Miter
  else if String.eqb v "miter-clip" then Some MiterClip
  else if String.eqb v "arc-clip" then Some ArcClip
  else if String.eqb v "round" then Some Round
  else if String.eqb v "arc" then Some Arc
  else if String.eqb v "bevel" then Some Bevel
  else None.

(** parse.go:334-339 splitOnCommaOrSpace *)
Definition splitOnCommaOrSpace (s : string) : list string :=
  fieldsFunc (fun c => Ascii.eqb c "," || Ascii.eqb c " ") s.

(** parse.go:264-271 the dash list *)
Fixpoint parseDashes (l : list string) : C (list F) :=
  match l with
  | [] => ret []
  | s :: r =>
    d <- cParseUnit (trimSpace s) diagPercentage ;;
    ds <- parseDashes r ;;
    ret (d :: ds)
  end.

(** parse.go:152-300 readStyleAttr: the updated style *)
Definition readStyleAttr (st : style) (k v : string) : C style :=
  if String.eqb k "fill" then
    g <- readGradURL v (st_filler st) ;;
    match g with
    | Some g => ret (s_set_filler (Some (PGrad g)) st)
    | None => col <- lift (parseSVGColor v) ;; ret (s_set_filler (asPattern col) st)
    end
  else if String.eqb k "fill-rule" then
    if String.eqb v "evenodd" then ret (s_set_nonZero false st)
    else if String.eqb v "nonzero" then ret (s_set_nonZero true st)
    else handleError (unsupported v "fill-rule") ;; ret st
  else if String.eqb k "stroke" then
    g <- readGradURL v (st_liner st) ;;
    match g with
    | Some g => ret (s_set_liner (Some (PGrad g)) st)
    | None => col <- lift (parseSVGColor v) ;; ret (s_set_liner (asPattern col) st)
    end
  else if String.eqb k "stroke-linegap" then
    match gapOf v with
    | Some g => ret (s_set_join (j_set_gap g (st_join st)) st)
    | None => handleError (unsupported v "stroke-linegap") ;; ret st
    end
  else if String.eqb k "stroke-leadlinecap" then
    match capOf v with
    | Some g => ret (s_set_join (j_set_lead g (st_join st)) st)
    | None => handleError (unsupported v "stroke-leadlinecap") ;; ret st
    end
  else if String.eqb k "stroke-linecap" then
    match capOf v with
    | Some g => ret (s_set_join (j_set_trail g (st_join st)) st)
    | None => handleError (unsupported v "stroke-linecap") ;; ret st
    end
  else if String.eqb k "stroke-linejoin" then
    match joinOf v with
    | Some g => ret (s_set_join (j_set_join g (st_join st)) st)
    | None => handleError (unsupported v "stroke-linejoin") ;; ret st
    end
  else if String.eqb k "stroke-miterlimit" then
    f <- lift (@parseBasicFloat E v) ;;
    ret (s_set_join (j_set_miter (fToFixed f) (st_join st)) st)
  else if String.eqb k "stroke-width" then
    w <- cParseUnit v widthPercentage ;; ret (s_set_lineWidth w st)
  else if String.eqb k "stroke-dashoffset" then
    d <- cParseUnit v diagPercentage ;; ret (s_set_dashOffset d st)
  else if String.eqb k "stroke-dasharray" then
    if negb (String.eqb v "none") then
      ds <- parseDashes (splitOnCommaOrSpace v) ;; ret (s_set_dash ds st)
    else ret st
  else if String.eqb k "opacity" || String.eqb k "stroke-opacity" || String.eqb k "fill-opacity" then
    f <- lift (@parseBasicFloat E v) ;;
    let st := if negb (String.eqb k "stroke-opacity")
              then s_set_fillOpacity (fmul E (st_fillOpacity st) f) st else st in
    let st := if negb (String.eqb k "fill-opacity")
              then s_set_lineOpacity (fmul E (st_lineOpacity st) f) st else st in
    ret st
  else if String.eqb k "transform" then
    m <- parseTransform v ;; ret (s_set_transform m st)
  else if String.eqb k "mask" then
    id <- lift (parseSelector v) ;;
    sl <- appendStr (st_masks st) id ;;
    ret (s_set_masks sl st)
  else ret st.

(** parse.go:306-314 the "key:value" strings of the attributes *)
Definition stylePairs (attrs : list attr) : list string :=
  flat_map (fun a =>
    if String.eqb (toLower E (a_name a)) "style" then split1 ";" (a_val a)
    else [(a_name a ++ ":" ++ a_val a)%string]) attrs.

(** parse.go:317-328 one pair *)
Definition stylePair (st : style) (pair : string) : C style :=
  match split1 ":" pair with
  | k :: v :: _ => readStyleAttr st (trimSpace (toLower E k)) (trimSpace v)
  | _ => ret st
  end.

(** parse.go:305-331 pushStyle *)
Definition pushStyle (attrs : list attr) : C unit :=
  top <- topStyle ;;
  st <- foldM stylePair top (stylePairs attrs) ;;
  modify (fun c => c_set_stack (st :: c_stack c) c).

(** ** styles.go *)
(** styles.go:12-17 *)
Fixpoint findStyle (attrs : list attr) : string :=
  match attrs with
  | [] => EmptyString
  | a :: r => if String.eqb (a_name a) "style" then a_val a else findStyle r
  end.
(** styles.go:9-53 appendStyleAttrs (its error is always nil) *)
Definition appendStyleAttrs (attrs : list attr) (names : list string) : list attr :=
  let style := findStyle attrs in
  if String.eqb style "" then attrs
  else
    let kvs := flat_map (fun s => match cut1 ":" s with
                                  | Some (k, v) => [mkAttr (toLower E (trimSpace k)) (trimSpace v)]
                                  | None => []
                                  end) (split1 ";" style) in
    match names with
    | [] => attrs ++ kvs
    | _ => attrs ++ filter (fun a => existsb (String.eqb (a_name a)) names) kvs
    end.

(** patterns.go:274-296 readGradAttr.  When parseTransform fails Go also stores the partial
    matrix in the gradient; Parse then stops and the gradient is unreachable, so that store is
    not modelled. *)
Definition onGrad (f : gradient -> gradient) : C unit := fun c =>
  match c_grad c with
  | None => (c, Panic)
  | Some p => match nth_error (c_gheap c) p with
              | Some g => (c_set_gheap (set_nth (c_gheap c) p (f g)) c, Ret tt)
              | None => (c, Panic)
              end
  end.
Definition readGradAttr (a : attr) : C unit :=
  if String.eqb (a_name a) "gradientTransform" then
    m <- parseTransform (a_val a) ;; onGrad (g_set_matrix m)
  else if String.eqb (a_name a) "gradientUnits" then
    let v := trimSpace (a_val a) in
    if String.eqb v "userSpaceOnUse" then onGrad (g_set_units UserSpaceOnUse)
    else if String.eqb v "objectBoundingBox" then onGrad (g_set_units ObjectBoundingBox)
    else ret tt
  else if String.eqb (a_name a) "spreadMethod" then
    let v := trimSpace (a_val a) in
    if String.eqb v "pad" then onGrad (g_set_spread PadSpread)
    else if String.eqb v "reflect" then onGrad (g_set_spread ReflectSpread)
    else if String.eqb v "repeat" then onGrad (g_set_spread RepeatSpread)
    else ret tt
  else ret tt.

End Cursor.

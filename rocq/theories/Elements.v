(** * Elements: svg_elements.go, parse.go readStartElement, svg.go Parse *)
From Verif Require Export Cursor.

Section Elements.
Context {E : Env}.
Notation F := (F E).
Notation "# z" := (fnum E z%Z) (at level 1, format "# z").
Notation C := (@C E).
Notation cursor := (cursor E).
Notation svg := (svg E).

Definition curXY : C (F * F) := gets (fun c => (pc_curX (c_pc c), pc_curY (c_pc c))).
Definition onCPath (f : path -> path) : C unit := liftP (onPath f).
Definition cGetPoints (v : string) : C unit := liftP (getPoints v).
Definition cPoints : C (list F) := gets (fun c => pc_points (c_pc c)).

(** [name] is the Local name of the attribute *)
Definition is (a : attr) (name : string) : bool := String.eqb (a_name a) name.

(** svg_elements.go:45-66 one attribute of <svg>; the state is (width, height) *)
Definition svgAttr (l : F * F) (a : attr) : C (F * F) :=
  let '(width, height) := l in
  if is a "viewBox" then
    err <- attempt (cGetPoints (a_val a)) ;;
    ps <- cPoints ;;
    match ps with
    | [x; y; w; h] =>
      onSvg (sv_set_viewBox (mkB x y w h)) ;;
      match err with Some e => raise e | None => ret l end
    | _ => raise ErrParamMismatch
    end
  else if is a "width" then
    onSvg (sv_set_width (a_val a)) ;;
    w <- lift (parseBasicFloat (a_val a)) ;; ret (w, height)
  else if is a "height" then
    onSvg (sv_set_height (a_val a)) ;;
    h <- lift (parseBasicFloat (a_val a)) ;; ret (width, h)
  else ret l.
(** svg_elements.go:38-74 svgF *)
Definition svgF (attrs : list attr) : C unit :=
  onSvg (sv_set_viewBox (mkB #0 #0 #0 #0)) ;;
  '(width, height) <- foldM svgAttr (#0, #0) attrs ;;
  onSvg (fun s => let b := sv_viewBox s in
    let b := if feqb E (bW b) #0 then mkB (bX b) (bY b) width (bH b) else b in
    let b := if feqb E (bH b) #0 then mkB (bX b) (bY b) (bW b) height else b in
    sv_set_viewBox b s).

(** svg_elements.go:75 gF *)
Definition gF (attrs : list attr) : C unit := ret tt.

(** svg_elements.go:79-97; the state is (x, y, w, h, rx, ry) *)
Definition rectAttr (l : F * F * F * F * F * F) (a : attr) : C (F * F * F * F * F * F) :=
  let '(x, y, w, h, rx, ry) := l in
  if is a "x" then x <- cParseUnit (a_val a) widthPercentage ;; ret (x, y, w, h, rx, ry)
  else if is a "y" then y <- cParseUnit (a_val a) heightPercentage ;; ret (x, y, w, h, rx, ry)
  else if is a "width" then w <- cParseUnit (a_val a) widthPercentage ;; ret (x, y, w, h, rx, ry)
  else if is a "height" then h <- cParseUnit (a_val a) heightPercentage ;; ret (x, y, w, h, rx, ry)
  else if is a "rx" then rx <- cParseUnit (a_val a) widthPercentage ;; ret (x, y, w, h, rx, ry)
  else if is a "ry" then ry <- cParseUnit (a_val a) heightPercentage ;; ret (x, y, w, h, rx, ry)
  else ret l.
(** svg_elements.go:76-110 rectF; [fuel] bounds the angle loop of addArc (shapes.go:67-69) *)
Definition rectF (fuel : nat) (attrs : list attr) : C unit :=
  '(x, y, w, h, rx, ry) <- foldM rectAttr (#0, #0, #0, #0, #0, #0) attrs ;;
  if feqb E w #0 || feqb E h #0 then ret tt
  else
    let ry := if negb (feqb E rx #0) && feqb E ry #0 then rx else ry in
    let rx := if negb (feqb E ry #0) && feqb E rx #0 then ry else rx in
    '(cx, cy) <- curXY ;;
    p <- gets (fun c => pc_path (c_pc c)) ;;
    p <- lift (addRoundRect fuel (fadd E x cx) (fadd E y cy) (fadd E (fadd E w x) cx)
                            (fadd E (fadd E h y) cy) rx ry #0 p) ;;
    onCPath (fun _ => p).

(** svg_elements.go:116-135; the state is (id, x, y, w, h) *)
Definition maskAttr (l : string * F * F * F * F) (a : attr) : C (string * F * F * F * F) :=
  let '(id, x, y, w, h) := l in
  if is a "id" then
    if String.length (a_val a) =? 0 then raise ErrZeroLengthID else ret (a_val a, x, y, w, h)
  else if is a "x" then x <- cParseUnit (a_val a) widthPercentage ;; ret (id, x, y, w, h)
  else if is a "y" then y <- cParseUnit (a_val a) heightPercentage ;; ret (id, x, y, w, h)
  else if is a "width" then w <- cParseUnit (a_val a) widthPercentage ;; ret (id, x, y, w, h)
  else if is a "height" then h <- cParseUnit (a_val a) heightPercentage ;; ret (id, x, y, w, h)
  else ret l.
(** svg_elements.go:112-148 maskF *)
Definition maskF (attrs : list attr) : C unit :=
  '(id, x, y, w, h) <- foldM maskAttr (EmptyString, #0, #0, #0, #0) attrs ;;
  modify (fun c => c_set_mask (Some (mkMask id x y w h [] identity)) (c_set_inMask true c)).

(** svg_elements.go:153-170; the state is (cx, cy, rx, ry) *)
Definition circleAttr (l : F * F * F * F) (a : attr) : C (F * F * F * F) :=
  let '(cx, cy, rx, ry) := l in
  if is a "cx" then cx <- cParseUnit (a_val a) widthPercentage ;; ret (cx, cy, rx, ry)
  else if is a "cy" then cy <- cParseUnit (a_val a) heightPercentage ;; ret (cx, cy, rx, ry)
  else if is a "r" then r <- cParseUnit (a_val a) diagPercentage ;; ret (cx, cy, r, r)
  else if is a "rx" then rx <- cParseUnit (a_val a) widthPercentage ;; ret (cx, cy, rx, ry)
  else if is a "ry" then ry <- cParseUnit (a_val a) heightPercentage ;; ret (cx, cy, rx, ry)
  else ret l.
(** svg_elements.go:150-176 circleF (circle and ellipse) *)
Definition circleF (attrs : list attr) : C unit :=
  '(cx, cy, rx, ry) <- foldM circleAttr (#0, #0, #0, #0) attrs ;;
  if feqb E rx #0 || feqb E ry #0 then ret tt
  else
    '(ox, oy) <- curXY ;;
    liftP (ellipseAt (fadd E cx ox) (fadd E cy oy) rx ry).

(** svg_elements.go:181-195; the state is (x1, x2, y1, y2) *)
Definition lineAttr (l : F * F * F * F) (a : attr) : C (F * F * F * F) :=
  let '(x1, x2, y1, y2) := l in
  if is a "x1" then x1 <- cParseUnit (a_val a) widthPercentage ;; ret (x1, x2, y1, y2)
  else if is a "x2" then x2 <- cParseUnit (a_val a) widthPercentage ;; ret (x1, x2, y1, y2)
  else if is a "y1" then y1 <- cParseUnit (a_val a) heightPercentage ;; ret (x1, x2, y1, y2)
  else if is a "y2" then y2 <- cParseUnit (a_val a) heightPercentage ;; ret (x1, x2, y1, y2)
  else ret l.
(** svg_elements.go:178-205 lineF *)
Definition lineF (attrs : list attr) : C unit :=
  '(x1, x2, y1, y2) <- foldM lineAttr (#0, #0, #0, #0) attrs ;;
  a <- liftP (fxp x1 y1) ;; onCPath (pStart a) ;;
  b <- liftP (fxp x2 y2) ;; onCPath (pLine b).

(** svg_elements.go:209-220 *)
Definition polyAttr (l : unit) (a : attr) : C unit :=
  if is a "points" then
    err <- attempt (cGetPoints (a_val a)) ;;
    ps <- cPoints ;;
    if negb (Nat.modulo (List.length ps) 2 =? 0) then
      raise (ErrMsg "polygon has odd number of points")
    else match err with Some e => raise e | None => ret tt end
  else ret tt.
(** svg_elements.go:207-234 polylineF *)
Definition polylineF (attrs : list attr) : C unit :=
  foldM polyAttr tt attrs ;;
  ps <- cPoints ;;
  if 4 <? List.length ps then
    a <- liftP (fxpt 0) ;; onCPath (pStart a) ;;
    loop (List.length ps) 2 2 (List.length ps - 1)
         (fun i => b <- liftP (fxpt i) ;; onCPath (pLine b))
  else ret tt.
(** svg_elements.go:236-242 polygonF *)
Definition polygonF (attrs : list attr) : C unit :=
  err <- attempt (polylineF attrs) ;;
  ps <- cPoints ;;
  (if 4 <? List.length ps then onCPath (pStop true) else ret tt) ;;
  match err with Some e => raise e | None => ret tt end.

(** svg_elements.go:244-256 pathF *)
Definition pathF (attrs : list attr) : C unit :=
  mapM (fun a => if is a "d" then liftP (compilePath (a_val a)) else ret tt) attrs.

(** svg_elements.go:258-268 descF, titleF *)
Definition descF (attrs : list attr) : C unit :=
  modify (c_set_inDesc true) ;; onSvg (fun s => sv_set_descs (sv_descs s ++ [EmptyString]) s).
Definition titleF (attrs : list attr) : C unit :=
  modify (c_set_inTitle true) ;; onSvg (fun s => sv_set_titles (sv_titles s ++ [EmptyString]) s).

(** svg_elements.go:270-273 defsF *)
Definition defsF (attrs : list attr) : C unit := modify (c_set_inDefs true).

(** svg_elements.go:282, 335: c.grad = &Gradient{Bounds: c.svg.ViewBox, Matrix: Identity} *)
Definition newGrad : C unit := modify (fun c =>
  let g := mkGrad None [] (sv_viewBox (c_svg c)) identity PadSpread ObjectBoundingBox in
  c_set_grad (Some (List.length (c_gheap c))) (c_set_gheap (c_gheap c ++ [g]) c)).
(** c.svg.grads[id] = c.grad *)
Definition registerGrad (id : string) : C unit := fun c =>
  match c_grad c with
  | Some p => (c_set_svg (sv_set_grads (mput id p (sv_grads (c_svg c))) (c_svg c)) c, Ret tt)
  | None => (c, Panic)
  end.
(** *c.grad *)
Definition theGrad : C (gradient E) := fun c =>
  match c_grad c with
  | Some p => (c, idx (c_gheap c) p)
  | None => (c, Panic)
  end.
(** svg_elements.go:308-311, 377-380 *)
Definition gradBox (g : gradient E) : bounds E :=
  match gUnits g with UserSpaceOnUse => gBounds g | ObjectBoundingBox => mkB #0 #0 #1 #1 end.

(** svg_elements.go:283-306; the state is directionStrings *)
Definition linAttr (l : string * string * string * string) (a : attr)
  : C (string * string * string * string) :=
  let '(x1, y1, x2, y2) := l in
  if is a "id" then registerGrad (a_val a) ;; ret l
  else if is a "x1" then ret (a_val a, y1, x2, y2)
  else if is a "y1" then ret (x1, a_val a, x2, y2)
  else if is a "x2" then ret (x1, y1, a_val a, y2)
  else if is a "y2" then ret (x1, y1, x2, a_val a)
  else readGradAttr a ;; ret l.
(** svg_elements.go:275-331 linearGradientF *)
Definition linearGradientF (attrs : list attr) : C unit :=
  modify (c_set_inGrad true) ;;
  newGrad ;;
  '(x1, y1, x2, y2) <- foldM linAttr ("0%", "0%", "100%", "0")%string attrs ;;
  g <- theGrad ;;
  let bbox := gradBox g in
  d0 <- lift (resolveUnit bbox x1 widthPercentage) ;;
  d1 <- lift (resolveUnit bbox y1 heightPercentage) ;;
  d2 <- lift (resolveUnit bbox x2 widthPercentage) ;;
  d3 <- lift (resolveUnit bbox y2 heightPercentage) ;;
  onGrad (g_set_direction (Some (Linear d0 d1 d2 d3))).

(** svg_elements.go:339-368; the state is cx, cy, fx, fy, r, fr; fx, fy are [None] until set *)
Definition radAttr (l : string * string * option string * option string * string * string) (a : attr)
  : C (string * string * option string * option string * string * string) :=
  let '(cx, cy, fx, fy, r, fr) := l in
  if is a "id" then registerGrad (a_val a) ;; ret l
  else if is a "cx" then ret (a_val a, cy, fx, fy, r, fr)
  else if is a "cy" then ret (cx, a_val a, fx, fy, r, fr)
  else if is a "fx" then ret (cx, cy, Some (a_val a), fy, r, fr)
  else if is a "fy" then ret (cx, cy, fx, Some (a_val a), r, fr)
  else if is a "r" then ret (cx, cy, fx, fy, a_val a, fr)
  else if is a "fr" then ret (cx, cy, fx, fy, r, a_val a)
  else readGradAttr a ;; ret l.
(** svg_elements.go:333-409 radialGradientF *)
Definition radialGradientF (attrs : list attr) : C unit :=
  modify (c_set_inGrad true) ;;
  newGrad ;;
  '(cx, cy, fx, fy, r, fr) <- foldM radAttr ("50%", "50%", None, None, "50%", "50%")%string attrs ;;
  let fx := match fx with Some s => s | None => cx end in
  let fy := match fy with Some s => s | None => cy end in
  g <- theGrad ;;
  let bbox := gradBox g in
  d0 <- lift (resolveUnit bbox cx widthPercentage) ;;
  d1 <- lift (resolveUnit bbox cy heightPercentage) ;;
  d2 <- lift (resolveUnit bbox fx widthPercentage) ;;
  d3 <- lift (resolveUnit bbox fy heightPercentage) ;;
  d4 <- lift (resolveUnit bbox r diagPercentage) ;;
  d5 <- lift (resolveUnit bbox fr diagPercentage) ;;
  onGrad (g_set_direction (Some (Radial d0 d1 d2 d3 d4 d5))).

(** svg_elements.go:421-436 *)
Definition stopAttr (s : gradStop E) (a : attr) : C (gradStop E) :=
  if is a "offset" then
    o <- lift (readFraction (a_val a)) ;; ret (mkStop (stColor s) o (stOpacity s))
  else if is a "stop-color" then
    col <- lift (@parseSVGColor E (a_val a)) ;; ret (mkStop (asColor col) (stOffset s) (stOpacity s))
  else if is a "stop-opacity" then
    o <- lift (parseBasicFloat (a_val a)) ;; ret (mkStop (stColor s) (stOffset s) o)
  else ret s.
(** svg_elements.go:411-440 stopF *)
Definition stopF (attrs : list attr) : C unit :=
  inG <- gets c_inGrad ;;
  if (inG : bool) then
    s <- foldM stopAttr (mkStop None #0 #1)
               (@appendStyleAttrs E attrs ["stop-color"; "stop-opacity"]%string) ;;
    onGrad (fun g => g_set_stops (gStops g ++ [s]) g)
  else ret tt.

(** svg_elements.go:448-460; the state is (href, x, y) *)
Definition useAttr (l : string * F * F) (a : attr) : C (string * F * F) :=
  let '(href, x, y) := l in
  if is a "href" then ret (a_val a, x, y)
  else if is a "x" then x <- cParseUnit (a_val a) widthPercentage ;; ret (href, x, y)
  else if is a "y" then y <- cParseUnit (a_val a) heightPercentage ;; ret (href, x, y)
  else ret l.

(** svg_elements.go:19-36 drawFuncs without "use" *)
Definition drawFunc (fuel : nat) (tag : string) : option (list attr -> C unit) :=
  if String.eqb tag "svg" then Some svgF
  else if String.eqb tag "g" then Some gF
  else if String.eqb tag "line" then Some lineF
  else if String.eqb tag "stop" then Some stopF
  else if String.eqb tag "rect" then Some (rectF fuel)
  else if String.eqb tag "circle" then Some circleF
  else if String.eqb tag "ellipse" then Some circleF
  else if String.eqb tag "polyline" then Some polylineF
  else if String.eqb tag "polygon" then Some polygonF
  else if String.eqb tag "path" then Some pathF
  else if String.eqb tag "desc" then Some descF
  else if String.eqb tag "defs" then Some defsF
  else if String.eqb tag "title" then Some titleF
  else if String.eqb tag "linearGradient" then Some linearGradientF
  else if String.eqb tag "radialGradient" then Some radialGradientF
  else if String.eqb tag "mask" then Some maskF
  else None.

Definition cannotProcess (tag : string) : string := ("Cannot process svg element " ++ tag)%string.

(** svg_elements.go:475-496 the loop over the definitions; [draw] is drawFuncs.  An unknown tag
    makes useF return (nil or an error, by handleError) from inside the loop. *)
Fixpoint useLoop (draw : string -> option (list attr -> C unit)) (defs : list definition) : C unit :=
  match defs with
  | [] => ret tt
  | def :: r =>
    if String.eqb (d_tag def) "endg" then popStyle ;; useLoop draw r
    else
      pushStyle (d_attrs def) ;;
      match draw (d_tag def) with
      | None => handleError (cannotProcess (d_tag def))
      | Some df =>
        df (d_attrs def) ;;
        (if negb (String.eqb (d_tag def) "g") then popStyle else ret tt) ;;
        useLoop draw r
      end
  end.

(** svg_elements.go:442-498 useF; [fuel] bounds the recursion through drawFuncs["use"] *)
Fixpoint useF (fuel : nat) (attrs : list attr) : C unit :=
  match fuel with
  | O => nofuel
  | S f =>
    '(href, x, y) <- foldM useAttr (EmptyString, #0, #0) attrs ;;
    modify (fun c => c_set_pc (set_cur x y (c_pc c)) c) ;;
    deferred (fun c => c_set_pc (set_cur #0 #0 (c_pc c)) c) (
      if String.eqb href "" then raise (ErrMsg "only use tags with href is supported")
      else if negb (hasPrefix href "#") then raise (ErrMsg "only the ID CSS selector is supported")
      else
        id <- lift (slice href 1 (String.length href)) ;;
        defs <- gets (fun c => sv_defs (c_svg c)) ;;
        match mget id defs with
        | None => raise (ErrMsg "href ID in use statement was not found in saved defs")
        | Some ds =>
          useLoop (fun tag => if String.eqb tag "use" then Some (useF f) else drawFunc f tag) ds
        end)
  end.

(** svg_elements.go:11-15, 19-36 drawFuncs *)
Definition drawFuncs (fuel : nat) (tag : string) : option (list attr -> C unit) :=
  if String.eqb tag "use" then Some (useF fuel) else drawFunc fuel tag.

(** parse.go:348-352: the last id attribute *)
Definition attrID (attrs : list attr) : string :=
  fold_left (fun id a => if is a "id" then a_val a else id) attrs EmptyString.

(** parse.go:353-356, svg.go:118-121: store the definitions collected so far *)
Definition flushDefs : C unit := modify (fun c =>
  match c_curDef c with
  | [] => c
  | d :: _ =>
    c_set_curDef [] (c_set_svg (sv_set_defs (mput (d_id d) (c_curDef c) (sv_defs (c_svg c))) (c_svg c)) c)
  end).
Definition addDef (d : definition) : C unit := modify (fun c => c_set_curDef (c_curDef c ++ [d]) c).

(** parse.go:376-387 collect the path drawn by the element *)
Definition collectPath : C unit :=
  c <- gets (fun c => c) ;;
  match pc_path (c_pc c) with
  | [] => ret tt
  | p =>
    (if c_inMask c then
       match c_mask c with
       | Some m =>
         st <- topStyle ;;
         modify (c_set_mask (Some (mkMask (mk_id m) (mk_x m) (mk_y m) (mk_w m) (mk_h m)
                                          (mk_paths m ++ [mkSvgPath p st]) (mk_transform m))))
       | None => ret tt
       end
     else
       st <- topStyle ;;
       onSvg (fun s => sv_set_paths (sv_paths s ++ [mkSvgPath p st]) s)) ;;
    onCPath (fun _ => [])
  end.

(** parse.go:341-389 readStartElement *)
Definition readStartElement (fuel : nat) (name : string) (attrs : list attr) : C unit :=
  c <- gets (fun c => c) ;;
  let skipDef := String.eqb name "radialGradient" || String.eqb name "linearGradient" || c_inGrad c in
  if c_inDefs c && negb skipDef then
    let id := attrID attrs in
    (if negb (String.eqb id "") then flushDefs else ret tt) ;;
    addDef (mkDef id name attrs)
  else
    match drawFuncs fuel name with
    | None => handleError (cannotProcess name)
    | Some df =>
      err <- attempt (df attrs) ;;
      collectPath ;;
      match err with Some e => raise e | None => ret tt end
    end.

(** encoding/xml tokens; comments, directives and processing instructions are [TOther] *)
Inductive token := TStart (name : string) (attrs : list attr) | TEnd (name : string)
                 | TChar (s : string) | TOther.
(** what decoder.Token returns after the last token: io.EOF or another error *)
Inductive term := TermEOF | TermErr (s : string).

(** svg.Titles[len(svg.Titles)-1] += s *)
Definition appendLast (l : list string) (s : string) : outcome (list string) :=
  match rev l with
  | [] => Panic
  | x :: r => Ret (rev r ++ [(x ++ s)%string])
  end.

(** svg.go:97-125 an end element *)
Definition endElement (name : string) : C unit :=
  popStyle ;;
  if String.eqb name "g" then
    b <- gets c_inDefs ;; if (b : bool) then addDef (mkDef EmptyString "endg" []) else ret tt
  else if String.eqb name "mask" then
    m <- gets c_mask ;;
    (match m with
     | Some m => onSvg (fun s => sv_set_masks (mput (mk_id m) m (sv_masks s)) s) ;;
                 modify (c_set_mask None)
     | None => ret tt
     end) ;;
    modify (c_set_inMask false)
  else if String.eqb name "title" then modify (c_set_inTitle false)
  else if String.eqb name "desc" then modify (c_set_inDesc false)
  else if String.eqb name "defs" then flushDefs ;; modify (c_set_inDefs false)
  else if String.eqb name "radialGradient" || String.eqb name "linearGradient" then
    modify (c_set_inGrad false)
  else ret tt.

(** svg.go:126-132 character data *)
Definition charData (s : string) : C unit :=
  c <- gets (fun c => c) ;;
  (if c_inTitle c then
     l <- lift (appendLast (sv_titles (c_svg c)) s) ;; onSvg (sv_set_titles l)
   else ret tt) ;;
  (if c_inDesc c then
     l <- lift (appendLast (sv_descs (c_svg c)) s) ;; onSvg (sv_set_descs l)
   else ret tt).

(** svg.go:84-133 the effect of one token *)
Definition stepToken (fuel : nat) (t : token) : C unit :=
  match t with
  | TStart name attrs => pushStyle attrs ;; readStartElement fuel name attrs
  | TEnd name => endElement name
  | TChar s => charData s
  | TOther => ret tt
  end.

(** svg.go:61-68 the initial state *)
Definition svg0 : svg := mkSvg (mkB #0 #0 #0 #0) [] [] [] identity [] EmptyString EmptyString [] [] [[]].
Definition pc0 (mode : errorMode) : pcur E :=
  mkPc [] #0 #0 #0 #0 #0 #0 #0 #0 [] Ascii.zero mode false [].
Definition cursor0 (mode : errorMode) : cursor :=
  mkCur (pc0 mode) svg0 [defaultStyle] None [] false false false false false [] None.

(** what Parse returns: (nil, err) or (svg, err), with the lines logged *)
Inductive presult :=
| PNil (e : goerr)                                     (* return nil, err *)
| PSvg (s : svg) (err : option goerr) (log : list string)   (* return svg, err *)
| PPanic
| PNoFuel.

Definition seenTag (toks : list token) : bool :=
  existsb (fun t => match t with TStart _ _ => true | _ => false end) toks.

(** svg.go:60-136 Parse, on the token stream of the decoder *)
Definition parse (fuel : nat) (mode : errorMode) (toks : list token) (tm : term) : presult :=
  match mapM (stepToken fuel) toks (cursor0 mode) with
  | (c, Ret _) =>
    match tm with
    | TermEOF => if seenTag toks then PSvg (c_svg c) None (pc_log (c_pc c))
                 else PNil (ErrMsg "invalid svg xml svg")
    | TermErr s => PSvg (c_svg c) (Some (ErrXML s)) (pc_log (c_pc c))
    end
  | (c, Err e) => PSvg (c_svg c) (Some e) (pc_log (c_pc c))
  | (_, Panic) => PPanic
  | (_, NoFuel) => PNoFuel
  end.

(** svg.go:142-149 ParseFile: [None] when os.Open fails *)
Definition parseFile (fuel : nat) (mode : errorMode) (file : option (list token * term)) (openErr : goerr) : presult :=
  match file with
  | None => PNil openErr
  | Some (toks, tm) => parse fuel mode toks tm
  end.

End Elements.
Arguments presult : clear implicits.

(** * PathCur: parse_path.go *)
From Verif Require Export Units.

(** parse_path.go:15-24 ErrorMode *)
Inductive errorMode := IgnoreErrorMode | WarnErrorMode | StrictErrorMode.

(** parse_path.go:33-43 pathCursor, plus the lines written by log.Println *)
Record pcur (E : Env) := mkPc {
  pc_path : path;
  pc_placeX : F E; pc_placeY : F E;
  pc_curX : F E; pc_curY : F E;
  pc_cntlX : F E; pc_cntlY : F E;
  pc_startX : F E; pc_startY : F E;
  pc_points : list (F E);
  pc_lastKey : ascii;
  pc_mode : errorMode;
  pc_inPath : bool;
  pc_log : list string
}.
Arguments mkPc {E}. Arguments pc_path {E}. Arguments pc_placeX {E}. Arguments pc_placeY {E}.
Arguments pc_curX {E}. Arguments pc_curY {E}. Arguments pc_cntlX {E}. Arguments pc_cntlY {E}.
Arguments pc_startX {E}. Arguments pc_startY {E}. Arguments pc_points {E}. Arguments pc_lastKey {E}.
Arguments pc_mode {E}. Arguments pc_inPath {E}. Arguments pc_log {E}.

Section PathCur.
Context {E : Env}.
Notation F := (F E).
Notation pcur := (pcur E).
Notation "# z" := (fnum E z%Z) (at level 1, format "# z").

(** field assignments of the Go struct *)
Definition set_path (p : path) (c : pcur) : pcur :=
  mkPc p (pc_placeX c) (pc_placeY c) (pc_curX c) (pc_curY c) (pc_cntlX c) (pc_cntlY c)
       (pc_startX c) (pc_startY c) (pc_points c) (pc_lastKey c) (pc_mode c) (pc_inPath c) (pc_log c).
Definition set_place (x y : F) (c : pcur) : pcur :=
  mkPc (pc_path c) x y (pc_curX c) (pc_curY c) (pc_cntlX c) (pc_cntlY c)
       (pc_startX c) (pc_startY c) (pc_points c) (pc_lastKey c) (pc_mode c) (pc_inPath c) (pc_log c).
Definition set_cur (x y : F) (c : pcur) : pcur :=
  mkPc (pc_path c) (pc_placeX c) (pc_placeY c) x y (pc_cntlX c) (pc_cntlY c)
       (pc_startX c) (pc_startY c) (pc_points c) (pc_lastKey c) (pc_mode c) (pc_inPath c) (pc_log c).
Definition set_cntl (x y : F) (c : pcur) : pcur :=
  mkPc (pc_path c) (pc_placeX c) (pc_placeY c) (pc_curX c) (pc_curY c) x y
       (pc_startX c) (pc_startY c) (pc_points c) (pc_lastKey c) (pc_mode c) (pc_inPath c) (pc_log c).
Definition set_start (x y : F) (c : pcur) : pcur :=
  mkPc (pc_path c) (pc_placeX c) (pc_placeY c) (pc_curX c) (pc_curY c) (pc_cntlX c) (pc_cntlY c)
       x y (pc_points c) (pc_lastKey c) (pc_mode c) (pc_inPath c) (pc_log c).
Definition set_points (l : list F) (c : pcur) : pcur :=
  mkPc (pc_path c) (pc_placeX c) (pc_placeY c) (pc_curX c) (pc_curY c) (pc_cntlX c) (pc_cntlY c)
       (pc_startX c) (pc_startY c) l (pc_lastKey c) (pc_mode c) (pc_inPath c) (pc_log c).
Definition set_lastKey (k : ascii) (c : pcur) : pcur :=
  mkPc (pc_path c) (pc_placeX c) (pc_placeY c) (pc_curX c) (pc_curY c) (pc_cntlX c) (pc_cntlY c)
       (pc_startX c) (pc_startY c) (pc_points c) k (pc_mode c) (pc_inPath c) (pc_log c).
Definition set_mode (m : errorMode) (c : pcur) : pcur :=
  mkPc (pc_path c) (pc_placeX c) (pc_placeY c) (pc_curX c) (pc_curY c) (pc_cntlX c) (pc_cntlY c)
       (pc_startX c) (pc_startY c) (pc_points c) (pc_lastKey c) m (pc_inPath c) (pc_log c).
Definition set_inPath (b : bool) (c : pcur) : pcur :=
  mkPc (pc_path c) (pc_placeX c) (pc_placeY c) (pc_curX c) (pc_curY c) (pc_cntlX c) (pc_cntlY c)
       (pc_startX c) (pc_startY c) (pc_points c) (pc_lastKey c) (pc_mode c) b (pc_log c).
Definition set_log (l : list string) (c : pcur) : pcur :=
  mkPc (pc_path c) (pc_placeX c) (pc_placeY c) (pc_curX c) (pc_curY c) (pc_cntlX c) (pc_cntlY c)
       (pc_startX c) (pc_startY c) (pc_points c) (pc_lastKey c) (pc_mode c) (pc_inPath c) l.

Definition P := M pcur.
Definition points : P (list F) := gets pc_points.
(** [c.points[i]] *)
Definition pnt (i : nat) : P F := fun c => (c, idx (pc_points c) i).
Definition onPath (f : path -> path) : P unit := modify (fun c => set_path (f (pc_path c)) c).
Definition println (s : string) : P unit := modify (fun c => set_log (pc_log c ++ [s]) c).

(** parse_path.go:45-52 init *)
Definition pinit : P unit := modify (fun c =>
  set_inPath false (set_path [] (set_lastKey " " (set_points [] (set_place #0 #0 c))))).

(** parse_path.go:77-79 reflect *)
Definition reflect (px py rx ry : F) : F * F :=
  (fsub E (fmul E px #2) rx, fsub E (fmul E py #2) ry).

(** parse_path.go:81-86 valsToAbs *)
Fixpoint vals_abs (last : F) (l : list F) : list F :=
  match l with
  | [] => []
  | v :: r => let last := fadd E last v in last :: vals_abs last r
  end.
Definition valsToAbs (last : F) : P unit :=
  modify (fun c => set_points (vals_abs last (pc_points c)) c).

(** parse_path.go:92-95 inner loop of pointsToAbs: i = 0, 2, ... < sz *)
Fixpoint abs_inner (fuel i j sz : nat) (lastX lastY : F) (p : list F) : outcome (list F) :=
  if i <? sz then
    match fuel with
    | O => NoFuel
    | S f =>
      a <~ idx p (i + j) ;; p <~ upd p (i + j) (fadd E a lastX) ;;
      b <~ idx p (i + 1 + j) ;; p <~ upd p (i + 1 + j) (fadd E b lastY) ;;
      abs_inner f (i + 2) j sz lastX lastY p
    end
  else Ret p.
(** parse_path.go:91-98 outer loop: j = 0, sz, 2*sz, ... < len(points) *)
Fixpoint abs_outer (fuel j sz : nat) (lastX lastY : F) (p : list F) : outcome (list F) :=
  if j <? length p then
    match fuel with
    | O => NoFuel
    | S f =>
      p <~ abs_inner sz 0 j sz lastX lastY p ;;
      lx <~ idx p (j + sz - 2) ;;
      ly <~ idx p (j + sz - 1) ;;
      abs_outer f (j + sz) sz lx ly p
    end
  else Ret p.
(** parse_path.go:88-99 pointsToAbs *)
Definition pointsToAbs (sz : nat) : P unit := fun c =>
  match abs_outer (length (pc_points c)) 0 sz (pc_placeX c) (pc_placeY c) (pc_points c) with
  | Ret p => (set_points p c, Ret tt)
  | Err e => (c, Err e)
  | Panic => (c, Panic)
  | NoFuel => (c, NoFuel)
  end.

(** parse_path.go:101-109 hasSetsOrMore *)
Definition hasSetsOrMore (sz : nat) (rel : bool) : P bool :=
  ps <- points ;;
  if negb ((sz <=? length ps) && (Nat.modulo (length ps) sz =? 0)) then ret false
  else (if rel then pointsToAbs sz else ret tt) ;; ret true.

(** [c.points = append(c.points, f)] where [f, err := parseBasicFloat(s)] *)
Definition pushFloat (s : string) : P unit :=
  f <- lift (parseBasicFloat s) ;; modify (fun c => set_points (pc_points c ++ [f]) c).

(** parse_path.go:112-135 readFloat *)
Fixpoint readFloat_loop (numStr : string) (rs : list (nat * N)) (last : nat) (isFirst : bool) : P nat :=
  match rs with
  | [] => ret last
  | (i, n) :: r =>
    if (n =? 46)%N then                       (* '.' *)
      if isFirst then readFloat_loop numStr r last false
      else
        s <- lift (slice numStr last i) ;;
        pushFloat s ;;
        readFloat_loop numStr r i isFirst
    else readFloat_loop numStr r last isFirst
  end.
Definition readFloat (numStr : string) : P unit :=
  last <- readFloat_loop numStr (range_str numStr) 0 true ;;
  s <- lift (slice numStr last (String.length numStr)) ;;
  pushFloat s.

(** parse_path.go:144 the characters that can be part of a number *)
Definition inNumber (lr r : N) : bool :=
  isNumber E r || (r =? 46)%N || ((r =? 45)%N && (lr =? 101)%N) || (r =? 101)%N.

(** parse_path.go:143-159 the loop of getPoints; [None] is lastIndex = -1 *)
Fixpoint getPoints_loop (dataPoints : string) (rs : list (nat * N)) (lastIndex : option nat) (lr : N)
  : P (option nat) :=
  match rs with
  | [] => ret lastIndex
  | (i, r) :: rest =>
    if negb (inNumber lr r) then
      (match lastIndex with
       | Some li => s <- lift (slice dataPoints li i) ;; readFloat s
       | None => ret tt
       end) ;;
      getPoints_loop dataPoints rest (if (r =? 45)%N then Some i else None) r
    else
      getPoints_loop dataPoints rest (match lastIndex with None => Some i | Some li => Some li end) r
  end.
(** parse_path.go:139-166 getPoints *)
Definition getPoints (dataPoints : string) : P unit :=
  modify (set_points []) ;;
  lastIndex <- getPoints_loop dataPoints (range_str dataPoints) None 32 ;;
  match lastIndex with
  | Some li =>
    if li =? String.length dataPoints then ret tt
    else s <- lift (slice dataPoints li (String.length dataPoints)) ;; readFloat s
  | None => ret tt
  end.

Definition is_key (k : ascii) (l : list ascii) : bool := existsb (Ascii.eqb k) l.

(** parse_path.go:168-175 reflectControlQuad *)
Definition reflectControlQuad : P unit := modify (fun c =>
  if is_key (pc_lastKey c) ["q"; "Q"; "T"; "t"]%char then
    let (x, y) := reflect (pc_placeX c) (pc_placeY c) (pc_cntlX c) (pc_cntlY c) in set_cntl x y c
  else set_cntl (pc_placeX c) (pc_placeY c) c).

(** parse_path.go:177-184 reflectControlCube *)
Definition reflectControlCube : P unit := modify (fun c =>
  if is_key (pc_lastKey c) ["c"; "C"; "s"; "S"]%char then
    let (x, y) := reflect (pc_placeX c) (pc_placeY c) (pc_cntlX c) (pc_cntlY c) in set_cntl x y c
  else set_cntl (pc_placeX c) (pc_placeY c) c).

(** [fixed.Point26_6{X: fixed.Int26_6((x + c.curX) * 64), Y: fixed.Int26_6((y + c.curY) * 64)}] *)
Definition at_cur (c : pcur) (x y : F) : pt :=
  (f_to_i32 E (fmul E (fadd E x (pc_curX c)) #64), f_to_i32 E (fmul E (fadd E y (pc_curY c)) #64)).
Definition fxp (x y : F) : P pt := gets (fun c => at_cur c x y).
(** the same for the coordinates c.points[i], c.points[i+1] *)
Definition fxpt (i : nat) : P pt := x <- pnt i ;; y <- pnt (i + 1) ;; fxp x y.

(** parse_path.go:400-404 addArcFromA(c.points[i:]).  findEllipseCenter writes the radii back
    into c.points[i], c.points[i+1]; addArc is then called with c.points, not c.points[i:]. *)
Definition addArcFromA (i : nat) : P unit :=
  p0 <- pnt i ;; p1 <- pnt (i + 1) ;; p2 <- pnt (i + 2) ;;
  p5 <- pnt (i + 5) ;; p6 <- pnt (i + 6) ;; p4 <- pnt (i + 4) ;; p3 <- pnt (i + 3) ;;
  c <- gets (fun c => c) ;;
  let '((cx, cy), (ra, rb)) :=
    findEllipseCenter p0 p1 (fdiv E (fmul E p2 (fpi E)) #180) (pc_placeX c) (pc_placeY c)
                      p5 p6 (feqb E p4 #0) (feqb E p3 #0) in
  ps <- lift (upd (pc_points c) i ra) ;;
  ps <- lift (upd ps (i + 1) rb) ;;
  modify (set_points ps) ;;
  '(p, (lx, ly)) <- lift (addArc ps (fadd E cx (pc_curX c)) (fadd E cy (pc_curY c))
                             (fadd E (pc_placeX c) (pc_curX c)) (fadd E (pc_placeY c) (pc_curY c))
                             (pc_path c)) ;;
  modify (fun c => set_place lx ly (set_path p c)).

(** [c.placeX = c.points[i]; c.placeY = c.points[i+1]] *)
Definition moveTo (i : nat) : P unit :=
  x <- pnt i ;; y <- pnt (i + 1) ;; modify (set_place x y).

(** [c.points[i] += c.placeX], [c.points[i+1] += c.placeY]  (parse_path.go:367-368) *)
Definition addPlaceAt (i : nat) : P unit :=
  x <- pnt i ;; c <- gets (fun c => c) ;;
  ps <- lift (upd (pc_points c) i (fadd E x (pc_placeX c))) ;; modify (set_points ps) ;;
  y <- pnt (i + 1) ;; c <- gets (fun c => c) ;;
  ps <- lift (upd (pc_points c) (i + 1) (fadd E y (pc_placeY c))) ;; modify (set_points ps).

(** [if !c.hasSetsOrMore(sz, rel) { return errParamMismatch }] *)
Definition requireSets (sz : nat) (rel : bool) : P unit :=
  ok <- hasSetsOrMore sz rel ;; if (ok : bool) then ret tt else raise ErrParamMismatch.

(** The cases of the switch of addSeg, parse_path.go:196-380; [l] is len(c.points) on entry *)
(* parse_path.go:197-208 *)
Definition segZ : P unit :=
  ps <- points ;;
  match ps with
  | _ :: _ => raise ErrParamMismatch
  | [] =>
    inP <- gets pc_inPath ;;
    if (inP : bool) then
      onPath (pStop true) ;;
      modify (fun c => set_place (pc_startX c) (pc_startY c) c) ;;
      modify (set_inPath false)
    else ret tt
  end.
(* parse_path.go:209-226 *)
Definition segM (rel : bool) (l : nat) : P unit :=
  requireSets 2 rel ;;
  x <- pnt 0 ;; y <- pnt 1 ;;
  modify (set_start x y) ;;
  modify (set_inPath true) ;;
  a <- fxp x y ;; onPath (pStart a) ;;
  loop l 2 2 (l - 1) (fun i => b <- fxpt i ;; onPath (pLine b)) ;;
  moveTo (l - 2).
(* parse_path.go:227-241 *)
Definition segL (rel : bool) (l : nat) : P unit :=
  requireSets 2 rel ;;
  loop l 0 2 (l - 1) (fun i => b <- fxpt i ;; onPath (pLine b)) ;;
  moveTo (l - 2).
(* parse_path.go:242-255 *)
Definition segV (rel : bool) (l : nat) : P unit :=
  (if rel then y <- gets pc_placeY ;; valsToAbs y else ret tt) ;;
  requireSets 1 false ;;
  ps <- points ;;
  mapM (fun p => x <- gets pc_placeX ;; b <- fxp x p ;; onPath (pLine b)) ps ;;
  y <- pnt (l - 1) ;; modify (fun c => set_place (pc_placeX c) y c).
(* parse_path.go:256-269 *)
Definition segH (rel : bool) (l : nat) : P unit :=
  (if rel then x <- gets pc_placeX ;; valsToAbs x else ret tt) ;;
  requireSets 1 false ;;
  ps <- points ;;
  mapM (fun p => y <- gets pc_placeY ;; b <- fxp p y ;; onPath (pLine b)) ps ;;
  x <- pnt (l - 1) ;; modify (fun c => set_place x (pc_placeY c) c).
(* parse_path.go:270-290 *)
Definition segQ (rel : bool) (l : nat) : P unit :=
  requireSets 4 rel ;;
  loop l 0 4 (l - 3) (fun i => b <- fxpt i ;; d <- fxpt (i + 2) ;; onPath (pQuad b d)) ;;
  x <- pnt (l - 4) ;; y <- pnt (l - 3) ;; modify (set_cntl x y) ;;
  moveTo (l - 2).
(* parse_path.go:291-312 *)
Definition segT (k : ascii) (rel : bool) (l : nat) : P unit :=
  requireSets 2 rel ;;
  loop l 0 2 (l - 1) (fun i =>
    reflectControlQuad ;;
    b <- gets (fun c => at_cur c (pc_cntlX c) (pc_cntlY c)) ;;
    d <- fxpt i ;;
    onPath (pQuad b d) ;;
    modify (set_lastKey k) ;;
    moveTo i).
(* parse_path.go:313-337 *)
Definition segC (rel : bool) (l : nat) : P unit :=
  requireSets 6 rel ;;
  loop l 0 6 (l - 5) (fun i =>
    b <- fxpt i ;; d <- fxpt (i + 2) ;; e <- fxpt (i + 4) ;; onPath (pCube b d e)) ;;
  x <- pnt (l - 4) ;; y <- pnt (l - 3) ;; modify (set_cntl x y) ;;
  moveTo (l - 2).
(* parse_path.go:338-360 *)
Definition segS (k : ascii) (rel : bool) (l : nat) : P unit :=
  requireSets 4 rel ;;
  loop l 0 4 (l - 3) (fun i =>
    reflectControlCube ;;
    b <- gets (fun c => at_cur c (pc_cntlX c) (pc_cntlY c)) ;;
    d <- fxpt i ;; e <- fxpt (i + 2) ;;
    onPath (pCube b d e) ;;
    modify (set_lastKey k) ;;
    x <- pnt i ;; y <- pnt (i + 1) ;; modify (set_cntl x y) ;;
    moveTo (i + 2)).
(* parse_path.go:361-371 *)
Definition segA (rel : bool) (l : nat) : P unit :=
  requireSets 7 false ;;
  loop l 0 7 (l - 6) (fun i =>
    (if rel then addPlaceAt (i + 5) else ret tt) ;;
    addArcFromA i).
(* parse_path.go:372-379.  string(k) is the UTF-8 encoding of the byte taken as a rune. *)
Definition rune_string (k : ascii) : string :=
  if (code k <? 128)%N then String k EmptyString
  else String (byte (192 + code k / 64)) (String (byte (128 + code k mod 64)) EmptyString).
Definition segUnknown (k : ascii) : P unit :=
  m <- gets pc_mode ;;
  match m with
  | StrictErrorMode => raise ErrCommandUnknown
  | WarnErrorMode => println ("Ignoring svg command " ++ rune_string k)%string
  | IgnoreErrorMode => ret tt
  end.

Definition eqk (k : ascii) (s : ascii) : bool := Ascii.eqb k s.

(** parse_path.go:196-380 the switch *)
Definition segSwitch (k : ascii) (l : nat) : P unit :=
  if eqk k "z" || eqk k "Z" then segZ
  else if eqk k "m" then segM true l
  else if eqk k "M" then segM false l
  else if eqk k "l" then segL true l
  else if eqk k "L" then segL false l
  else if eqk k "v" then segV true l
  else if eqk k "V" then segV false l
  else if eqk k "h" then segH true l
  else if eqk k "H" then segH false l
  else if eqk k "q" then segQ true l
  else if eqk k "Q" then segQ false l
  else if eqk k "t" then segT k true l
  else if eqk k "T" then segT k false l
  else if eqk k "c" then segC true l
  else if eqk k "C" then segC false l
  else if eqk k "s" then segS k true l
  else if eqk k "S" then segS k false l
  else if eqk k "a" then segA true l
  else if eqk k "A" then segA false l
  else segUnknown k.

(** parse_path.go:188-383 addSeg *)
Definition addSeg (segString : string) : P unit :=
  rest <- lift (slice segString 1 (String.length segString)) ;;
  getPoints rest ;;
  ps <- points ;;
  k <- lift (byteat segString 0) ;;
  segSwitch k (length ps) ;;
  modify (set_lastKey k).

(** parse_path.go:56-75 compilePath; [None] is lastIndex = -1 *)
Fixpoint compile_loop (svgPath : string) (rs : list (nat * N)) (lastIndex : option nat) : P (option nat) :=
  match rs with
  | [] => ret lastIndex
  | (i, v) :: r =>
    if isLetter E v && negb (v =? 101)%N then
      (match lastIndex with
       | Some li => s <- lift (slice svgPath li i) ;; addSeg s
       | None => ret tt
       end) ;;
      compile_loop svgPath r (Some i)
    else compile_loop svgPath r lastIndex
  end.
Definition compilePath (svgPath : string) : P unit :=
  pinit ;;
  lastIndex <- compile_loop svgPath (range_str svgPath) None ;;
  match lastIndex with
  | Some li => s <- lift (slice svgPath li (String.length svgPath)) ;; addSeg s
  | None => ret tt
  end.

(** parse_path.go:387-397 ellipseAt *)
Definition ellipseAt (cx cy rx ry : F) : P unit :=
  modify (set_place (fadd E cx rx) cy) ;;
  c <- gets (fun c => c) ;;
  let ps := [rx; ry; #0; #1; #0; pc_placeX c; pc_placeY c] in
  modify (set_points ps) ;;
  onPath (pStart (toFixedP (pc_placeX c) (pc_placeY c))) ;;
  c <- gets (fun c => c) ;;
  '(p, (lx, ly)) <- lift (addArc ps cx cy (pc_placeX c) (pc_placeY c) (pc_path c)) ;;
  modify (fun c => set_place lx ly (set_path p c)) ;;
  onPath (pStop true).

End PathCur.

(** * Geom: matrix.go, path.go, shapes.go *)
From Verif Require Export Env.

(** fixed.Point26_6 (golang.org/x/image/math/fixed): two int32 in 1/64 units *)
Definition pt := (Z * Z)%type.
Definition ptAdd (a b : pt) : pt := (wrap32 (fst a + fst b), wrap32 (snd a + snd b))%Z.
Definition ptSub (a b : pt) : pt := (wrap32 (fst a - fst b), wrap32 (snd a - snd b))%Z.
(** Point26_6.Mul: p.X * k / 64 in int32; Go's / truncates toward zero *)
Definition ptMul (a : pt) (k : Z) : pt :=
  (Z.quot (wrap32 (fst a * k)) 64, Z.quot (wrap32 (snd a * k)) 64)%Z.

(** path.go:12-34  the path operations *)
Inductive op :=
| OpMoveTo (a : pt)
| OpLineTo (b : pt)
| OpQuadTo (b c : pt)
| OpCubicTo (b c d : pt)
| OpClose.

(** path.go:60 *)
Definition path := list op.

(** path.go:81-106  Path.Start, Line, QuadBezier, CubeBezier, Stop: append to the slice.
    (A Path is only ever extended by its owner and copied at parse.go:378, so a list
    without aliasing models the slice.) *)
Definition pStart (a : pt) (p : path) : path := p ++ [OpMoveTo a].
Definition pLine (b : pt) (p : path) : path := p ++ [OpLineTo b].
Definition pQuad (b c : pt) (p : path) : path := p ++ [OpQuadTo b c].
Definition pCube (b c d : pt) (p : path) : path := p ++ [OpCubicTo b c d].
Definition pStop (closeLoop : bool) (p : path) : path := if closeLoop then p ++ [OpClose] else p.

(** matrix.go:13-15 *)
Record matrix (E : Env) := mkM { mA : F E; mB : F E; mC : F E; mD : F E; mE : F E; mF : F E }.
Arguments mkM {E}. Arguments mA {E}. Arguments mB {E}. Arguments mC {E}.
Arguments mD {E}. Arguments mE {E}. Arguments mF {E}.

(** svg.go:38 *)
Record bounds (E : Env) := mkB { bX : F E; bY : F E; bW : F E; bH : F E }.
Arguments mkB {E}. Arguments bX {E}. Arguments bY {E}. Arguments bW {E}. Arguments bH {E}.

Section Geom.
Context {E : Env}.
Notation F := (F E).
Local Notation "a + b" := (fadd E a b).
Local Notation "a - b" := (fsub E a b).
Local Notation "a * b" := (fmul E a b).
Local Notation "a / b" := (fdiv E a b).
Local Notation "- a" := (fneg E a).
Local Notation "# z" := (fnum E z%Z) (at level 1, format "# z").
Local Notation mat := (matrix E).

(** ** path.go *)

(** path.go:36-56  Operation.String.  [float32(x)/64] is exact after the float32 rounding. *)
Definition coord (z : Z) : string := fmt_3f E (f32_of_Z E z / #64).
Definition pts (l : list pt) : string :=
  joinStr "," (flat_map (fun p => [coord (fst p); coord (snd p)]) l).
Definition opString (o : op) : string :=
  match o with
  | OpMoveTo a => String.append "M" (pts [a])
  | OpLineTo b => String.append "L" (pts [b])
  | OpQuadTo b c => String.append "Q" (pts [b; c])
  | OpCubicTo b c d => String.append "C" (String.append "C" (pts [b; c; d]))    (* path.go:50: "C" + Sprintf("C...") *)
  | OpClose => "Z"
  end.
(** path.go:63-74  Path.ToSVGPath / Path.String *)
Definition toSVGPath (p : path) : string := joinStr " " (map opString p).

(** ** matrix.go *)

(** matrix.go:21-31 otherPair *)
Definition otherPair (i : nat) : nat * nat :=
  match i with 0 => (1, 2) | 1 => (0, 2) | 2 => (0, 1) | _ => (0, 0) end.

(** matrix.go:19  [9]float64, a list of length 9 here *)
Definition m3get (m : list F) (i : nat) : F := nth i m #0.  (* all uses below are at i < 9 *)

(** matrix.go:33-38 coFact *)
Definition coFact (m : list F) (i j : nat) : F :=
  let (ai, bi) := otherPair i in
  let (aj, bj) := otherPair j in
  let a := m3get m (ai + aj * 3)%nat in
  let b := m3get m (bi + bj * 3)%nat in
  let c := m3get m (ai + bj * 3)%nat in
  let d := m3get m (bi + aj * 3)%nat in
  a * b - c * d.

(** matrix.go:40-60 invert.  The two nested loops fill and transpose a 3x3 array; here the
    array is tabulated: entry k = i + 3*j. *)
Definition cofEntry (m : list F) (k : nat) : F :=
  let i := Nat.modulo k 3 in
  let j := Nat.div k 3 in
  let sign := fnum E (1 - Z.of_nat (Nat.modulo (i + Nat.modulo j 2) 2) * 2)%Z in
  coFact m i j * sign.
Definition m3invert (m : list F) : list F :=
  let cofact := map (cofEntry m) (seq 0 9) in
  let det := m3get m 0 * m3get cofact 0 + m3get m 1 * m3get cofact 1 + m3get m 2 * m3get cofact 2 in
  let transposed := map (fun k => m3get cofact (Nat.div k 3 + 3 * Nat.modulo k 3)%nat) (seq 0 9) in
  map (fun x => x / det) transposed.

(** matrix.go:62-67 Invert *)
Definition mInvert (a : mat) : mat :=
  let n := m3invert [mA a; mC a; mE a; mB a; mD a; mF a; #0; #0; #1] in
  mkM (m3get n 0) (m3get n 3) (m3get n 1) (m3get n 4) (m3get n 2) (m3get n 5).

(** matrix.go:69-79 Mult *)
Definition mMult (a b : mat) : mat :=
  mkM (mA a * mA b + mC a * mB b)
      (mB a * mA b + mD a * mB b)
      (mA a * mC b + mC a * mD b)
      (mB a * mC b + mD a * mD b)
      (mA a * mE b + mC a * mF b + mE a * mA b)
      (mB a * mE b + mD a * mF b + mF a * mD b).

(** matrix.go:81-82 Identity *)
Definition identity : mat := mkM #1 #0 #0 #1 #0 #0.

(** matrix.go:84-89 TFixed *)
Definition tFixed (a : mat) (x : pt) : pt :=
  (f_to_i32 E ((f_of_Z E (fst x) * mA a + f_of_Z E (snd x) * mC a) + mE a * #64),
   f_to_i32 E ((f_of_Z E (fst x) * mB a + f_of_Z E (snd x) * mD a) + mF a * #64)).

(** matrix.go:91-97 Transform *)
Definition mTransform (a : mat) (x1 y1 : F) : F * F :=
  (x1 * mA a + y1 * mC a + mE a, x1 * mB a + y1 * mD a + mF a).

(** matrix.go:99-105 TransformVector *)
Definition mTransformVector (a : mat) (x1 y1 : F) : F * F :=
  (x1 * mA a + y1 * mC a, x1 * mB a + y1 * mD a).

(** matrix.go:107-117 Scale *)
Definition mScale (a : mat) (x y : F) : mat :=
  mkM (mA a * x) (mB a * y) (mC a * x) (mD a * y) (mE a * x) (mF a * y).

(** matrix.go:119-129 SkewY *)
Definition mSkewY (a : mat) (theta : F) : mat :=
  mMult a (mkM #1 (ftan E theta) #0 #1 #0 #0).

(** matrix.go:131-141 SkewX *)
Definition mSkewX (a : mat) (theta : F) : mat :=
  mMult a (mkM #1 #0 (ftan E theta) #1 #0 #0).

(** matrix.go:143-153 Translate *)
Definition mTranslate (a : mat) (x y : F) : mat :=
  mkM (mA a) (mB a) (mC a) (mD a) (mE a + x) (mF a + y).

(** matrix.go:155-165 Rotate *)
Definition mRotate (a : mat) (theta : F) : mat :=
  mMult a (mkM (fcos E theta) (fsin E theta) (- fsin E theta) (fcos E theta) #0 #0).

(** matrix.go:198-216 MoveTo, LineTo, QuadTo, CubicTo: transform an operation *)
Definition mapOp (m : mat) (o : op) : op :=
  match o with
  | OpMoveTo a => OpMoveTo (tFixed m a)
  | OpLineTo b => OpLineTo (tFixed m b)
  | OpQuadTo b c => OpQuadTo (tFixed m b) (tFixed m c)
  | OpCubicTo b c d => OpCubicTo (tFixed m b) (tFixed m c) (tFixed m d)
  | OpClose => OpClose
  end.

(** matrix.go:221-223 LineWidthScale *)
Definition lineWidthScale (t : mat) : F := (mA t + mD t) / #2.

(** matrix.go:173-176 Reset; the receiver's matrix M *)
Definition aReset (m : mat) : mat := identity.
(** matrix.go:167-196 matrixAdder: the matrix M and the path it appends to *)
Definition aStart (m : mat) (a : pt) (p : path) : path := pStart (tFixed m a) p.
Definition aLine (m : mat) (b : pt) (p : path) : path := pLine (tFixed m b) p.
Definition aQuad (m : mat) (b c : pt) (p : path) : path := pQuad (tFixed m b) (tFixed m c) p.
Definition aCube (m : mat) (b c d : pt) (p : path) : path :=
  pCube (tFixed m b) (tFixed m c) (tFixed m d) p.

(** ** shapes.go *)

(** parse.go:33-35 fToFixed *)
Definition fToFixed (f : F) : Z := f_to_i32 E (f * #64).

(** shapes.go:24-29 toFixedP *)
Definition toFixedP (x y : F) : pt := (f_to_i32 E (x * #64), f_to_i32 E (y * #64)).

(** shapes.go:33-43 addRect *)
Definition addRect (minX minY maxX maxY rot : F) (p : path) : path :=
  let rot := rot * fpi_180 E in
  let cx := (minX + maxX) / #2 in
  let cy := (minY + maxY) / #2 in
  let m := mTranslate (mRotate (mTranslate identity cx cy) rot) (- cx) (- cy) in
  let p := aStart m (toFixedP minX minY) p in
  let p := aLine m (toFixedP maxX minY) p in
  let p := aLine m (toFixedP maxX maxY) p in
  let p := aLine m (toFixedP minX maxY) p in
  pStop true p.

(** shapes.go:46-49 length *)
Definition ptLength (v : pt) : Z :=
  let vx := f_of_Z E (fst v) in
  let vy := f_of_Z E (snd v) in
  f_to_i32 E (fsqrt E (vx * vx + vy * vy)).

(** math.Pi * 2 and math.Pi / 8 are Go constants; multiplying or dividing by a power of two
    commutes with rounding, so they are written as operations on [fpi]. *)
Definition twoPi : F := fpi E * #2.
Definition piOver8 : F := fpi E / #8.

(** shapes.go:63-65, 67-69  [for a < b { a += 2*math.Pi }], with fuel *)
Fixpoint raise_angle (fuel : nat) (a b : F) : outcome F :=
  if fltb E a b then
    match fuel with O => NoFuel | S f => raise_angle f (a + twoPi) b end
  else Ret a.

(** shapes.go:92-100 the segment loop of addArc.  [n] iterations remain, [i] is the next index. *)
Fixpoint arcSegs (n : nat) (i : Z) (m : mat) (a : pt) (r theta1 dTheta : F) (alpha : Z)
                 (s1 ldp : pt) (p : path) : path :=
  match n with
  | O => p
  | S n' =>
    let eta := theta1 + dTheta * f_of_Z E i in
    let ds2 := (wrap32 (Z.opp (f_to_i32 E (r * fsin E eta))), f_to_i32 E (r * fcos E eta)) in
    let ps2 := (wrap32 (fst a + snd ds2)%Z, wrap32 (snd a - fst ds2)%Z) in
    let p1 := ptAdd s1 (ptMul ldp alpha) in
    let p2 := ptSub ps2 (ptMul ds2 alpha) in
    arcSegs n' (i + 1)%Z m a r theta1 dTheta alpha ps2 ds2 (aCube m p1 p2 ps2 p)
  end.

(** shapes.go:52-102 addArc (circular arc), called only from roundGap with clockwise = true,
    trimStart = trimEnd = 0 and firstPoint = p.Line; those arguments are specialised here and
    the unused results dropped.  [segs] is not wrapped to 64 bits: the quotient of angles is far
    below 2^63. *)
Definition addCircArc (fuel : nat) (m : mat) (a s1 s2 : pt) (p : path) : outcome path :=
  let theta1 := fatan2 E (f_of_Z E (wrap32 (snd s1 - snd a)%Z)) (f_of_Z E (wrap32 (fst s1 - fst a)%Z)) in
  let theta2 := fatan2 E (f_of_Z E (wrap32 (snd s2 - snd a)%Z)) (f_of_Z E (wrap32 (fst s2 - fst a)%Z)) in
  obind (raise_angle fuel theta2 theta1) (fun theta2 =>
  let deltaTheta := theta2 - theta1 in
  let segs := Z.add (f_to_int E (fabs E deltaTheta / piOver8)) 1 in
  let dTheta := deltaTheta / f_of_Z E segs in
  let tde := ftan E (dTheta / #2) in
  let alpha := f_to_i32 E (fsin E dTheta * (fsqrt E (#4 + #3 * tde * tde) - #1) * flit E 64 3) in
  let r := f_of_Z E (ptLength (ptSub s1 a)) in
  let ldp := (wrap32 (Z.opp (f_to_i32 E (r * fsin E theta1))), f_to_i32 E (r * fcos E theta1)) in
  let ps1 := (wrap32 (fst a + snd ldp)%Z, wrap32 (snd a - fst ldp)%Z) in
  Ret (arcSegs (Z.to_nat segs) 1 m a r theta1 dTheta alpha ps1 ldp (aLine m ps1 p))).

(** shapes.go:105-109 roundGap *)
Definition roundGap (fuel : nat) (m : mat) (a tNorm lNorm : pt) (p : path) : outcome path :=
  obind (addCircArc fuel m a (ptAdd a tNorm) (ptAdd a lNorm) p) (fun p =>
  Ret (aLine m (ptAdd a lNorm) p)).

(** shapes.go:115-148 addRoundRect *)
Definition addRoundRect (fuel : nat) (minX minY maxX maxY rx ry rot : F) (p : path) : outcome path :=
  if fleb E rx #0 || fleb E ry #0 then Ret (addRect minX minY maxX maxY rot p)
  else
    let rot := rot * fpi_180 E in
    let w := maxX - minX in
    let rx := if fltb E w (rx * #2) then w / #2 else rx in
    let h := maxY - minY in
    let ry := if fltb E h (ry * #2) then h / #2 else ry in
    let stretch := rx / ry in
    let midY := minY + h / #2 in
    let m := mTranslate
               (mScale (mRotate (mTranslate identity (minX + w / #2) midY) rot) #1 (#1 / stretch))
               ((- minX) - w / #2) ((- minY) - h / #2) in
    let maxY := midY + h / #2 * stretch in
    let minY := midY - h / #2 * stretch in
    let p := aStart m (toFixedP (minX + rx) minY) p in
    let p := aLine m (toFixedP (maxX - rx) minY) p in
    obind (roundGap fuel m (toFixedP (maxX - rx) (minY + rx)) (toFixedP #0 (- rx)) (toFixedP rx #0) p) (fun p =>
    let p := aLine m (toFixedP maxX (maxY - rx)) p in
    obind (roundGap fuel m (toFixedP (maxX - rx) (maxY - rx)) (toFixedP rx #0) (toFixedP #0 rx) p) (fun p =>
    let p := aLine m (toFixedP (minX + rx) maxY) p in
    obind (roundGap fuel m (toFixedP (minX + rx) (maxY - rx)) (toFixedP #0 rx) (toFixedP (- rx) #0) p) (fun p =>
    let p := aLine m (toFixedP minX (minY + rx)) p in
    obind (roundGap fuel m (toFixedP (minX + rx) (minY + rx)) (toFixedP (- rx) #0) (toFixedP #0 (- rx)) p) (fun p =>
    Ret (pStop true p))))).

(** shapes.go:208-214 ellipsePrime (cx, cy are unused there) *)
Definition ellipsePrime (a b sinTheta cosTheta eta : F) : F * F :=
  let bCosEta := b * fcos E eta in
  let aSinEta := a * fsin E eta in
  ((- aSinEta) * cosTheta - bCosEta * sinTheta,
   (- aSinEta) * sinTheta + bCosEta * cosTheta).

(** shapes.go:217-223 ellipsePointAt *)
Definition ellipsePointAt (a b sinTheta cosTheta eta cx cy : F) : F * F :=
  let aCosEta := a * fcos E eta in
  let bSinEta := b * fsin E eta in
  (cx + aCosEta * cosTheta - bSinEta * sinTheta,
   cy + aCosEta * sinTheta + bSinEta * cosTheta).

(** shapes.go:164-177 the angle span of the arc *)
Definition adjustEta (deltaEta : F) (arcBig largeArc sweep : bool) : F :=
  let d1 := if xorb arcBig largeArc then
              (if fltb E deltaEta #0 then deltaEta + twoPi else deltaEta - twoPi)
            else deltaEta in
  if fltb E d1 #0 && sweep then d1 + twoPi
  else if fleb E #0 d1 && negb sweep then d1 - twoPi
  else d1.

(** shapes.go:191-203 the segment loop of Path.addArc; [n] iterations remain *)
Fixpoint ellSegs (n : nat) (i segs : Z) (ra rb endX endY cx cy sinT cosT etaStart dEta alpha : F)
                 (lx ly ldx ldy : F) (p : path) : path * (F * F) :=
  match n with
  | O => (p, (lx, ly))
  | S n' =>
    let eta := etaStart + dEta * f_of_Z E i in
    let (px, py) := if (i =? segs)%Z then (endX, endY)
                    else ellipsePointAt ra rb sinT cosT eta cx cy in
    let (dx, dy) := ellipsePrime ra rb sinT cosT eta in
    let p := pCube (toFixedP (lx + alpha * ldx) (ly + alpha * ldy))
                   (toFixedP (px - alpha * dx) (py - alpha * dy)) (toFixedP px py) p in
    ellSegs n' (i + 1)%Z segs ra rb endX endY cx cy sinT cosT etaStart dEta alpha px py dx dy p
  end.

(** shapes.go:151-205 Path.addArc; the result is the new path and the end point *)
Definition addArc (points : list F) (cx cy px py : F) (p : path) : outcome (path * (F * F)) :=
  obind (idx points 2) (fun p2 => obind (idx points 3) (fun p3 => obind (idx points 4) (fun p4 =>
  obind (idx points 6) (fun p6 => obind (idx points 5) (fun p5 =>
  obind (idx points 1) (fun p1 => obind (idx points 0) (fun p0 =>
  let rotX := p2 * fpi E / #180 in
  let largeArc := negb (feqb E p3 #0) in
  let sweep := negb (feqb E p4 #0) in
  let startAngle := fatan2 E (py - cy) (px - cx) - rotX in
  let endAngle := fatan2 E (p6 - cy) (p5 - cx) - rotX in
  let deltaTheta := endAngle - startAngle in
  let arcBig := fltb E (fpi E) (fabs E deltaTheta) in
  let etaStart := fatan2 E (fsin E startAngle / p1) (fcos E startAngle / p0) in
  let etaEnd := fatan2 E (fsin E endAngle / p1) (fcos E endAngle / p0) in
  let deltaEta := adjustEta (etaEnd - etaStart) arcBig largeArc sweep in
  let segs := Z.add (f_to_int E (fabs E deltaEta / piOver8)) 1 in
  let dEta := deltaEta / f_of_Z E segs in
  let tde := ftan E (dEta / #2) in
  let alpha := fsin E dEta * (fsqrt E (#4 + #3 * tde * tde) - #1) / #3 in
  let sinT := fsin E rotX in
  let cosT := fcos E rotX in
  let (ldx, ldy) := ellipsePrime p0 p1 sinT cosT etaStart in
  Ret (ellSegs (Z.to_nat segs) 1 segs p0 p1 p5 p6 cx cy sinT cosT etaStart dEta alpha px py ldx ldy p)
  ))))))).

(** shapes.go:232-273 findEllipseCenter; the result is the centre and the (possibly grown)
    radii that the Go code writes back through its pointers. *)
Definition findEllipseCenter (ra rb rotX startX startY endX endY : F) (sweep smallArc : bool)
  : (F * F) * (F * F) :=
  let cos := fcos E rotX in
  let sin := fsin E rotX in
  let nx := endX - startX in
  let ny := endY - startY in
  let nx' := nx * cos + ny * sin in
  let ny' := (- nx) * sin + ny * cos in
  let nx' := nx' * (rb / ra) in
  let midX := nx' / #2 in
  let midY := ny' / #2 in
  let midlenSq := midX * midX + midY * midY in
  let '(ra', rb', hr) :=
    if fltb E (rb * rb) midlenSq then
      let nrb := fsqrt E midlenSq in
      ((if feqb E ra rb then nrb else ra * nrb / rb), nrb, #0)
    else (ra, rb, fsqrt E (rb * rb - midlenSq) / fsqrt E midlenSq) in
  let (cx, cy) :=
    if (sweep && smallArc) || (negb sweep && negb smallArc)
    then (midX + midY * hr, midY - midX * hr)
    else (midX - midY * hr, midY + midX * hr) in
  let cx := cx * (ra' / rb') in
  ((cx * cos - cy * sin + startX, cx * sin + cy * cos + startY), (ra', rb')).

End Geom.

(** * Units: units.go *)
From Verif Require Export Geom.
Open Scope go_scope.

(** units.go:11-23 *)
Inductive unite := Px | Cm | Mm | Pt | In | Q | Pc | Perc.

(** units.go:49-55 *)
Inductive percRef := widthPercentage | heightPercentage | diagPercentage.

Section Units.
Context {E : Env}.
Notation F := (F E).

(** units.go:25 absoluteUnits, in array order *)
Definition absoluteUnits : list (unite * string) :=
  [(Px, "px"); (Cm, "cm"); (Mm, "mm"); (Pt, "pt"); (In, "in"); (Q, "Q"); (Pc, "pc"); (Perc, "%")].

(** units.go:27 toPx; each entry is a Go constant expression, rounded once *)
Definition toPx (u : unite) : F :=
  match u with
  | Px => flit E 1 1
  | Cm => flit E 9600 254
  | Mm => flit E 960 254
  | Pt => flit E 96 72
  | In => flit E 96 1
  | Q => flit E 9600 10160
  | Pc => flit E 96 6
  | Perc => flit E 1 1
  end.

(** units.go:31-40 findUnit *)
Fixpoint findUnit_in (l : list (unite * string)) (s : string) : unite * string :=
  match l with
  | [] => (Px, s)
  | (u, suffix) :: r =>
    if hasSuffix s suffix then (u, trimSpace (trimSuffix s suffix)) else findUnit_in r s
  end.
Definition findUnit (s : string) : unite * string := findUnit_in absoluteUnits (trimSpace s).

(** units.go:43-47 parseUnit.  The value returned along with an error is used by no caller. *)
Definition parseUnit (s : string) : outcome (F * bool) :=
  let (u, value) := findUnit s in
  match parseFloat E value with
  | Some out => Ret (fmul E out (toPx u), match u with Perc => true | _ => false end)
  | None => Err (ErrNumber value)
  end.

(** units.go:9 root2 *)
Definition root2 : F := fsqrt E (fnum E 2).

(** units.go:60-78 Bounds.resolveUnit *)
Definition resolveUnit (viewBox : bounds E) (s : string) (asPerc : percRef) : outcome F :=
  '(value, isPercentage) <~ parseUnit s ;;
  if (isPercentage : bool) then
    let w := bW viewBox in
    let h := bH viewBox in
    match asPerc with
    | widthPercentage => Ret (fmul E (fdiv E value (fnum E 100)) w)
    | heightPercentage => Ret (fmul E (fdiv E value (fnum E 100)) h)
    | diagPercentage =>
      let normalizedDiag := fdiv E (fsqrt E (fadd E (fmul E w w) (fmul E h h))) root2 in
      Ret (fmul E (fdiv E value (fnum E 100)) normalizedDiag)
    end
  else Ret value.

(** units.go:86-89 parseBasicFloat *)
Definition parseBasicFloat (s : string) : outcome F :=
  '(value, _) <~ parseUnit s ;; Ret value.

(** units.go:91-107 readFraction *)
Definition readFraction (v : string) : outcome F :=
  let v := trimSpace v in
  let '(d, v) := if hasSuffix v "%" then (fnum E 100, trimSuffix v "%") else (fnum E 1, v) in
  f <~ parseBasicFloat v ;;
  Ret (fdiv E f d).

End Units.

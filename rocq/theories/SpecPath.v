(** * SpecPath: what SVG path data means

    A specification of path data that does not mention parse_path.go: commands as an abstract
    syntax with a pen semantics, numerals and their legal spellings.  It uses only the type of
    path operations ([op]) and the arithmetic of [Env]. *)
From Verif Require Import Geom.

Section SpecPath.
Context (E : Env).
Notation F := (F E).
Local Notation "a +. b" := (fadd E a b) (at level 50, left associativity).
Local Notation "a -. b" := (fsub E a b) (at level 50, left associativity).
Local Notation "a *. b" := (fmul E a b) (at level 40, left associativity).

(** ** Commands *)
Definition point := (F * F)%type.

(** one command with one or more argument sets; [rel] is true for the lower case letter *)
Inductive cmd :=
| MoveTo (rel : bool) (p : point) (ps : list point)
| LineTo (rel : bool) (p : point) (ps : list point)
| HLineTo (rel : bool) (x : F) (xs : list F)
| VLineTo (rel : bool) (y : F) (ys : list F)
| QuadTo (rel : bool) (q : point * point) (qs : list (point * point))
| SmoothQuadTo (rel : bool) (p : point) (ps : list point)
| CubicTo (rel : bool) (c : point * point * point) (cs : list (point * point * point))
| SmoothCubicTo (rel : bool) (q : point * point) (qs : list (point * point))
| ClosePath.

(** ** The pen: current point, start of the current subpath, last control point *)
Inductive ctrl := NoCtrl | QuadCtrl (p : point) | CubicCtrl (p : point).
Record pen := mkPen { at_ : point; from : point; last_ctrl : ctrl }.

(** argument [p] as an absolute point when the pen is at [cur] *)
Definition absolute (rel : bool) (cur p : point) : point :=
  if rel then (fst cur +. fst p, snd cur +. snd p) else p.
(** the mirror image of [c] about [cur]: 2*cur - c *)
Definition mirror (cur c : point) : point :=
  (fst cur *. fnum E 2 -. fst c, snd cur *. fnum E 2 -. snd c).

Section Exec.
(** everything is shifted by [off] and rounded to 1/64 *)
Context (off : point).
Definition dot (p : point) : pt :=
  (f_to_i32 E ((fst p +. fst off) *. fnum E 64), f_to_i32 E ((snd p +. snd off) *. fnum E 64)).

(** the effect of one argument set: new pen, operations appended *)
Definition line (rel : bool) (s : pen) (p : point) : pen * list op :=
  let p := absolute rel (at_ s) p in
  (mkPen p (from s) NoCtrl, [OpLineTo (dot p)]).
Definition hline (rel : bool) (s : pen) (x : F) : pen * list op :=
  let p := (if rel then fst (at_ s) +. x else x, snd (at_ s)) in
  (mkPen p (from s) NoCtrl, [OpLineTo (dot p)]).
Definition vline (rel : bool) (s : pen) (y : F) : pen * list op :=
  let p := (fst (at_ s), if rel then snd (at_ s) +. y else y) in
  (mkPen p (from s) NoCtrl, [OpLineTo (dot p)]).
Definition quad (rel : bool) (s : pen) (q : point * point) : pen * list op :=
  let c := absolute rel (at_ s) (fst q) in
  let p := absolute rel (at_ s) (snd q) in
  (mkPen p (from s) (QuadCtrl c), [OpQuadTo (dot c) (dot p)]).
Definition smooth_quad (rel : bool) (s : pen) (p : point) : pen * list op :=
  let c := match last_ctrl s with QuadCtrl c => mirror (at_ s) c | _ => at_ s end in
  let p := absolute rel (at_ s) p in
  (mkPen p (from s) (QuadCtrl c), [OpQuadTo (dot c) (dot p)]).
Definition cubic (rel : bool) (s : pen) (q : point * point * point) : pen * list op :=
  let '(c1, c2, p) := q in
  let c1 := absolute rel (at_ s) c1 in
  let c2 := absolute rel (at_ s) c2 in
  let p := absolute rel (at_ s) p in
  (mkPen p (from s) (CubicCtrl c2), [OpCubicTo (dot c1) (dot c2) (dot p)]).
Definition smooth_cubic (rel : bool) (s : pen) (q : point * point) : pen * list op :=
  let c1 := match last_ctrl s with CubicCtrl c => mirror (at_ s) c | _ => at_ s end in
  let c2 := absolute rel (at_ s) (fst q) in
  let p := absolute rel (at_ s) (snd q) in
  (mkPen p (from s) (CubicCtrl c2), [OpCubicTo (dot c1) (dot c2) (dot p)]).

(** argument sets one after the other *)
Fixpoint many {A} (f : pen -> A -> pen * list op) (s : pen) (l : list A) : pen * list op :=
  match l with
  | [] => (s, [])
  | a :: r => let (s1, o1) := f s a in let (s2, o2) := many f s1 r in (s2, o1 ++ o2)
  end.

Definition exec (s : pen) (c : cmd) : pen * list op :=
  match c with
  | MoveTo rel p ps =>
    let p := absolute rel (at_ s) p in
    let (s', o) := many (line rel) (mkPen p p NoCtrl) ps in (s', OpMoveTo (dot p) :: o)
  | LineTo rel p ps => many (line rel) s (p :: ps)
  | HLineTo rel x xs => many (hline rel) s (x :: xs)
  | VLineTo rel y ys => many (vline rel) s (y :: ys)
  | QuadTo rel q qs => many (quad rel) s (q :: qs)
  | SmoothQuadTo rel p ps => many (smooth_quad rel) s (p :: ps)
  | CubicTo rel c cs => many (cubic rel) s (c :: cs)
  | SmoothCubicTo rel q qs => many (smooth_cubic rel) s (q :: qs)
  | ClosePath => (mkPen (from s) (from s) NoCtrl, [OpClose])
  end.

Definition pen0 : pen := mkPen (fnum E 0, fnum E 0) (fnum E 0, fnum E 0) NoCtrl.

(** the operations drawn by a list of commands *)
Definition run (s : pen) (cs : list cmd) : pen * list op := many exec s cs.
Definition draws (cs : list cmd) : list op := snd (run pen0 cs).
End Exec.

(** every [ClosePath] closes a subpath opened by a [MoveTo] after the previous [ClosePath] *)
Fixpoint closes_open (opened : bool) (cs : list cmd) : bool :=
  match cs with
  | [] => true
  | MoveTo _ _ _ :: r => closes_open true r
  | ClosePath :: r => opened && closes_open false r
  | _ :: r => closes_open opened r
  end.

(** ** Concrete syntax *)
Definition letter (c : cmd) : ascii :=
  let u (rel : bool) (lo up : ascii) := if rel then lo else up in
  match c with
  | MoveTo rel _ _ => u rel "m" "M"
  | LineTo rel _ _ => u rel "l" "L"
  | HLineTo rel _ _ => u rel "h" "H"
  | VLineTo rel _ _ => u rel "v" "V"
  | QuadTo rel _ _ => u rel "q" "Q"
  | SmoothQuadTo rel _ _ => u rel "t" "T"
  | CubicTo rel _ _ => u rel "c" "C"
  | SmoothCubicTo rel _ _ => u rel "s" "S"
  | ClosePath => "Z"
  end%char.
Definition p1 (p : point) : list F := [fst p; snd p].
Definition p2 (q : point * point) : list F := p1 (fst q) ++ p1 (snd q).
Definition p3 (q : point * point * point) : list F := p2 (fst q) ++ p1 (snd q).
Definition args (c : cmd) : list F :=
  match c with
  | MoveTo _ p ps | LineTo _ p ps | SmoothQuadTo _ p ps => flat_map p1 (p :: ps)
  | HLineTo _ x xs | VLineTo _ x xs => x :: xs
  | QuadTo _ q qs | SmoothCubicTo _ q qs => flat_map p2 (q :: qs)
  | CubicTo _ q qs => flat_map p3 (q :: qs)
  | ClosePath => []
  end.
End SpecPath.
Arguments mkPen {E}. Arguments at_ {E}. Arguments from {E}. Arguments last_ctrl {E}.
Arguments NoCtrl {E}. Arguments QuadCtrl {E}. Arguments CubicCtrl {E}.
Arguments MoveTo {E}. Arguments LineTo {E}. Arguments HLineTo {E}. Arguments VLineTo {E}.
Arguments QuadTo {E}. Arguments SmoothQuadTo {E}. Arguments CubicTo {E}. Arguments SmoothCubicTo {E}.
Arguments ClosePath {E}.

(** ** Numerals: sign, integer digits, fraction digits, exponent digits *)
Inductive sgn := NoSign | Plus | Minus.
Record numeral := mkNum {
  n_sign : sgn;
  n_int : string;
  n_frac : option string;                 (* Some ds: a point followed by ds *)
  n_exp : option (bool * string)          (* Some (neg, ds): e, a minus if neg, ds *)
}.
Definition nonempty (s : string) : bool := negb (String.eqb s "").
Definition digits (s : string) : bool := all_chars is_digit s.
Definition legal_numeral (n : numeral) : bool :=
  digits (n_int n)
  && match n_frac n with
     | None => nonempty (n_int n)
     | Some f => digits f && (nonempty (n_int n) || nonempty f)
     end
  && match n_exp n with None => true | Some (_, ds) => digits ds && nonempty ds end.
Definition unsigned_text (n : numeral) : string :=
  (n_int n
   ++ match n_frac n with None => "" | Some f => "." ++ f end
   ++ match n_exp n with None => "" | Some (neg, ds) => "e" ++ (if (neg : bool) then "-" else "") ++ ds end)%string.
Definition num_text (n : numeral) : string :=
  (match n_sign n with NoSign => "" | Plus => "+" | Minus => "-" end ++ unsigned_text n)%string.
(** the value of a numeral, as strconv.ParseFloat reads it (an explicit plus sign changes
    nothing), times 1 as for a length in pixels *)
Definition num_value (E : Env) (n : numeral) : option (F E) :=
  match parseFloat E (match n_sign n with Minus => "-" | _ => "" end ++ unsigned_text n)%string with
  | Some w => Some (fmul E w (flit E 1 1))
  | None => None
  end.

(** separators: white space and commas *)
Definition is_sep (c : ascii) : bool :=
  existsb (Ascii.eqb c) [" "; ","; "009"; "010"; "012"; "013"]%char.
Definition seps (s : string) : bool := all_chars is_sep s.
Definition is_some {A} (o : option A) : bool := match o with Some _ => true | None => false end.
(** [n] may follow [prev] without a separator if it starts with a sign, or if it starts with a
    point and [prev] already has one *)
Definition may_touch (prev n : numeral) : bool :=
  match n_sign n with
  | NoSign => negb (nonempty (n_int n)) && is_some (n_frac prev)
  | _ => true
  end.
(** a list of numerals, each with the separator in front of it *)
Definition items := list (string * numeral).
Fixpoint items_text (l : items) : string :=
  match l with
  | [] => ""
  | (sep, n) :: r => (sep ++ num_text n ++ items_text r)%string
  end.
Fixpoint legal_items (prev : option numeral) (l : items) : bool :=
  match l with
  | [] => true
  | (sep, n) :: r =>
    seps sep && legal_numeral n
    && match prev with None => true | Some p => nonempty sep || may_touch p n end
    && legal_items (Some n) r
  end.
(** [s] is a legal spelling of the numbers [vs] *)
Definition spells_numbers (E : Env) (s : string) (vs : list (F E)) : Prop :=
  exists (l : items) (trail : string),
    s = (items_text l ++ trail)%string /\ legal_items None l = true /\ seps trail = true
    /\ map (fun it => num_value E (snd it)) l = map Some vs.
(** [s] is a legal spelling of the commands [cs] *)
Inductive spells_commands (E : Env) : string -> list (cmd E) -> Prop :=
| spells_nil : spells_commands E "" []
| spells_cons c t s cs :
    spells_numbers E t (args E c) -> spells_commands E s cs ->
    spells_commands E (String (letter E c) (t ++ s)) (c :: cs)
| spells_close_lower t s cs :                        (* z is as good as Z *)
    seps t = true -> spells_commands E s cs ->
    spells_commands E (String "z" (t ++ s)) (ClosePath :: cs).
Definition spells (E : Env) (s : string) (cs : list (cmd E)) : Prop :=
  exists lead body, s = (lead ++ body)%string /\ seps lead = true /\ spells_commands E body cs.

(** ** Argument counts: numbers per argument set of each command letter *)
Definition set_size (k : ascii) : option nat :=
  let is l := existsb (Ascii.eqb k) l in
  if is ["Z"; "z"]%char then Some 0
  else if is ["H"; "h"; "V"; "v"]%char then Some 1
  else if is ["M"; "m"; "L"; "l"; "T"; "t"]%char then Some 2
  else if is ["Q"; "q"; "S"; "s"]%char then Some 4
  else if is ["C"; "c"]%char then Some 6
  else if is ["A"; "a"]%char then Some 7
  else None.
(** [n] arguments are one or more complete sets (none at all for Z) *)
Definition good_count (k : ascii) (n : nat) : bool :=
  match set_size k with
  | Some 0 => n =? 0
  | Some sz => negb (n =? 0) && (Nat.modulo n sz =? 0)
  | None => false
  end.

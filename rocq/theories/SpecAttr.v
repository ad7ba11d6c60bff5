(** * SpecAttr: what attribute values denote, independently of the parser

    Lengths with units, plain numbers, colours.  Values are elements of the environment's [F]
    (float64 in the [F64] instance, exact reals in [RealEnv]). *)
From Verif Require Export Cursor.

(** white space *)
Definition is_blank (c : ascii) : bool :=
  existsb (Ascii.eqb c) [" "; "009"; "010"; "011"; "012"; "013"]%char.
Definition blank (s : string) : bool := all_chars is_blank s.

(** the last character of [s] satisfies [p] *)
Fixpoint ends_with (p : ascii -> bool) (s : string) : bool :=
  match s with
  | EmptyString => false
  | String c EmptyString => p c
  | String _ r => ends_with p r
  end.
(** the text of a number: characters a number may hold, the last one a digit or a point *)
Definition number_text (w : string) : bool :=
  all_chars (fun c => is_digit c || existsb (Ascii.eqb c) ["+"; "-"; "."; "e"; "E"]%char) w
  && ends_with (fun c => is_digit c || Ascii.eqb c ".") w.

(** ** Lengths *)
Inductive lunit := UNone | UPx | UCm | UMm | UPt | UIn | UQ | UPc | UPercent.
Definition unit_text (u : lunit) : string :=
  match u with
  | UNone => "" | UPx => "px" | UCm => "cm" | UMm => "mm" | UPt => "pt" | UIn => "in"
  | UQ => "Q" | UPc => "pc" | UPercent => "%"
  end.
(** pixels per unit, at 96 pixels per inch, as a fraction: 1 cm = 96/2.54 px, 1 mm = 96/25.4,
    1 pt = 96/72, 1 Q = 96/101.6, 1 pc = 96/6 *)
Definition px_per (u : lunit) : Z * positive :=
  match u with
  | UNone | UPx | UPercent => (1%Z, 1%positive)
  | UCm => (9600%Z, 254%positive)
  | UMm => (960%Z, 254%positive)
  | UPt => (96%Z, 72%positive)
  | UIn => (96%Z, 1%positive)
  | UQ => (9600%Z, 10160%positive)
  | UPc => (96%Z, 6%positive)
  end.
(** what a percentage refers to *)
Inductive extent := OfWidth | OfHeight | OfDiagonal.
Section Lengths.
Context (E : Env).
Definition full (vb : bounds E) (e : extent) : F E :=
  match e with
  | OfWidth => bW vb
  | OfHeight => bH vb
  | OfDiagonal =>                           (* sqrt(w^2 + h^2) / sqrt 2 *)
    fdiv E (fsqrt E (fadd E (fmul E (bW vb) (bW vb)) (fmul E (bH vb) (bH vb)))) (fsqrt E (fnum E 2))
  end.
Definition length_value (vb : bounds E) (e : extent) (u : lunit) (v : F E) : F E :=
  let x := fmul E v (flit E (fst (px_per u)) (snd (px_per u))) in
  match u with
  | UPercent => fmul E (fdiv E x (fnum E 100)) (full vb e)
  | _ => x
  end.
(** [s] is a number with a unit, white space around and between allowed; its value is [x] *)
Definition is_length (vb : bounds E) (e : extent) (s : string) (x : F E) : Prop :=
  exists l w m u r v, s = (l ++ w ++ m ++ unit_text u ++ r)%string
    /\ blank l = true /\ blank m = true /\ blank r = true /\ number_text w = true
    /\ parseFloat E w = Some v /\ x = length_value vb e u v.
(** [s] is a plain number (a unit is allowed, a percent sign is ignored) *)
Definition is_number (s : string) (x : F E) : Prop :=
  exists l w m u r v, s = (l ++ w ++ m ++ unit_text u ++ r)%string
    /\ blank l = true /\ blank m = true /\ blank r = true /\ number_text w = true
    /\ parseFloat E w = Some v /\ x = fmul E v (flit E (fst (px_per u)) (snd (px_per u))).
End Lengths.

(** ** Colours *)
(** the byte written by two hexadecimal digits *)
Definition hex_val (c : ascii) : option Z :=
  match c with
  | "0" => Some 0 | "1" => Some 1 | "2" => Some 2 | "3" => Some 3 | "4" => Some 4
  | "5" => Some 5 | "6" => Some 6 | "7" => Some 7 | "8" => Some 8 | "9" => Some 9
  | "a" | "A" => Some 10 | "b" | "B" => Some 11 | "c" | "C" => Some 12
  | "d" | "D" => Some 13 | "e" | "E" => Some 14 | "f" | "F" => Some 15
  | _ => None
  end%char%Z.
(** the value of a decimal numeral *)
Definition dec_val (s : string) : Z :=
  fold_left (fun a c => a * 10 + (Z.of_N (code c) - 48))%Z (list_ascii_of_string s) 0%Z.
Definition decimal (s : string) : bool := all_chars is_digit s && negb (String.eqb s "").
(** one component of rgb(): an integer, clamped, or a percentage up to 100 *)
Inductive component : string -> Z -> Prop :=
| comp_int l d r : blank l = true -> blank r = true -> decimal d = true -> (dec_val d < 2 ^ 63)%Z ->
    component (l ++ d ++ r)%string (Z.min 255 (dec_val d))
| comp_perc l d r : blank l = true -> blank r = true -> decimal d = true -> (dec_val d <= 100)%Z ->
    component (l ++ d ++ r ++ "%")%string (dec_val d * 255 / 100)%Z.
(** [colour E s p]: the text [s] denotes the paint [p]; [None] is no paint, [Some (r, g, b, a)] a
    colour.  The table of colour names is the environment's [colorname]. *)
Definition low_case (s : string) : string := map_chars lower_ascii s.
Inductive colour (E : Env) : string -> option (Z * Z * Z * Z) -> Prop :=
| col_hex6 r1 r2 g1 g2 b1 b2 vr1 vr2 vg1 vg2 vb1 vb2 :
    hex_val r1 = Some vr1 -> hex_val r2 = Some vr2 -> hex_val g1 = Some vg1 -> hex_val g2 = Some vg2 ->
    hex_val b1 = Some vb1 -> hex_val b2 = Some vb2 ->
    colour E (string_of_list_ascii ["#"%char; r1; r2; g1; g2; b1; b2])
             (Some (16 * vr1 + vr2, 16 * vg1 + vg2, 16 * vb1 + vb2, 255)%Z)
| col_hex3 r g b vr vg vb :
    hex_val r = Some vr -> hex_val g = Some vg -> hex_val b = Some vb ->
    colour E (string_of_list_ascii ["#"%char; r; g; b]) (Some (17 * vr, 17 * vg, 17 * vb, 255)%Z)
| col_rgb s1 s2 s3 r g b :
    component s1 r -> component s2 g -> component s3 b ->
    colour E ("rgb(" ++ s1 ++ "," ++ s2 ++ "," ++ s3 ++ ")")%string (Some (r, g, b, 255%Z))
| col_none s : low_case s = "none"%string -> colour E s None
| col_name s c :
    all_chars is_ascii s = true -> colorname E (low_case s) = Some c -> colour E s (Some c).
(** the table holds lower-case words only *)
Definition is_lower (c : ascii) : bool := (97 <=? code c)%N && (code c <=? 122)%N.
Definition name_table (E : Env) : Prop := forall s c, colorname E s = Some c ->
  all_chars is_lower s = true /\ hasPrefix s "url" = false /\ s <> "none"%string /\ s <> ""%string.

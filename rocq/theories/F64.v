(** * F64: the binary64 instance of [Env]

    Arithmetic is IEEE-754 binary64 with round-to-nearest-even, from the standard library's
    [SpecFloat] (the specification of Coq's primitive floats; no axiom is used).  math.Sin, Cos,
    Tan, Atan2, the Unicode tables, the colour names and the conversion of a float64 that does not
    fit an integer type stay parameters: the record [Oracles]. *)
From Coq Require Import Floats.SpecFloat.
From Verif Require Export Render.
Local Open Scope Z_scope.

Definition sf := spec_float.
Definition prec64 := 53%Z.
Definition emax64 := 1024%Z.

Record Oracles := {
  o_sin : sf -> sf; o_cos : sf -> sf; o_tan : sf -> sf; o_atan2 : sf -> sf -> sf;
  o_isLetterU : N -> bool; o_isNumberU : N -> bool; o_toLowerU : string -> string;
  o_colorname : string -> option (Z * Z * Z * Z);
  (* int(f), int32(f) and uint32(f) when the truncated value does not fit: "the behavior is
     implementation-dependent" (Go specification, Conversions), and differs between amd64 and arm64 *)
  o_int : sf -> Z; o_i32 : sf -> Z; o_u32 : sf -> Z }.

(** the quotient n/d of an integer and a positive integer, correctly rounded *)
Definition sf_rat (neg : bool) (n : N) (d : positive) : sf :=
  match n with
  | N0 => S754_zero neg
  | Npos p => SFdiv prec64 emax64 (S754_finite neg p 0) (S754_finite false d 0)
  end.
Definition sf_lit (n : Z) (d : positive) : sf := sf_rat (n <? 0) (Z.abs_N n) d.
Definition sf_of_Z (z : Z) : sf := binary_normalize prec64 emax64 z 0 false.
(** float32(n) widened to float64 *)
Definition sf32_of_Z (z : Z) : sf :=
  match binary_normalize 24 128 z 0 false with
  | S754_finite s m e => binary_normalize prec64 emax64 (cond_Zopp s (Zpos m)) e s
  | f => f
  end.

(** truncation toward zero of a finite value *)
Definition sf_trunc (f : sf) : option Z :=
  match f with
  | S754_zero _ => Some 0
  | S754_finite s m e =>
    let a := if 0 <=? e then Zpos m * 2 ^ e else Zpos m / 2 ^ (- e) in
    Some (cond_Zopp s a)
  | _ => None
  end.
(** conversion to an integer type with the values lo .. hi - 1 *)
Definition sf_to (lo hi : Z) (other : sf -> Z) (f : sf) : Z :=
  match sf_trunc f with
  | Some z => if (lo <=? z) && (z <? hi) then z else other f
  | None => other f
  end.
(** int(f), int32(f), uint32(f) *)
Definition sf_to_int64 (O : Oracles) (f : sf) : Z := wrap64 (sf_to (- 2 ^ 63) (2 ^ 63) (o_int O) f).
Definition sf_to_i32 (O : Oracles) (f : sf) : Z := wrap32 (sf_to (- 2 ^ 31) (2 ^ 31) (o_i32 O) f).
Definition sf_to_u32 (O : Oracles) (f : sf) : Z := (sf_to 0 (2 ^ 32) (o_u32 O) f) mod 2 ^ 32.
(** what amd64 does: CVTTSD2SQ and CVTTSD2SL give the smallest number; uint32(f) is the low half of
    the 64 bit conversion *)
Definition amd64_int (f : sf) : Z := - 2 ^ 63.
Definition amd64_i32 (f : sf) : Z := - 2 ^ 31.
Definition amd64_u32 (f : sf) : Z := sf_to (- 2 ^ 63) (2 ^ 63) amd64_int f.

(** ** strconv.ParseFloat: decimal and hexadecimal numbers, underscores, inf and nan, correctly
    rounded.  A result that overflows is an error in Go. *)
Fixpoint take_digits (s : string) (acc : N) (k : nat) : N * nat * string :=
  match s with
  | String c r =>
    if is_digit c then take_digits r (acc * 10 + (code c - 48))%N (S k) else (acc, k, s)
  | EmptyString => (acc, k, s)
  end.
(** the digits of the exponent: those after the value has reached 10000 are skipped *)
Fixpoint take_exp (s : string) (acc : N) (k : nat) : N * nat * string :=
  match s with
  | String c r =>
    if is_digit c then take_exp r (if acc <? 10000 then acc * 10 + (code c - 48) else acc)%N (S k) else (acc, k, s)
  | EmptyString => (acc, k, s)
  end.
Definition pow10 (k : Z) : positive := Pos.pow 10 (Z.to_pos k).   (* k > 0 *)
Definition sf_dec (neg : bool) (m : N) (e : Z) : sf :=
  if e =? 0 then sf_rat neg m 1
  else if 0 <? e then sf_rat neg (m * Npos (pow10 e))%N 1
  else sf_rat neg m (pow10 (- e)).
(** the exponent after its letter: a sign and at least one digit, up to the end *)
Definition parse_expval (s : string) : option Z :=
  let '(sg, r) := match s with
                  | String "-"%char r' => (true, r')
                  | String "+"%char r' => (false, r')
                  | _ => (false, s)
                  end in
  let '(v, k, r) := take_exp r 0%N 0 in
  match k, r with
  | S _, EmptyString => Some (if (sg : bool) then - Z.of_N v else Z.of_N v)
  | _, _ => None
  end.
Definition parse_exp (s : string) : option Z :=
  match s with
  | EmptyString => Some 0
  | String c r => if Ascii.eqb c "e" || Ascii.eqb c "E" then parse_expval r else None
  end.
(** exponents so large that the result is certainly 0 or overflows, given [k1] integer and [k2] fraction digits,
    are replaced by smaller ones with the same result *)
Definition clip_exp (k1 k2 : nat) (e : Z) : Z := Z.max (-2000 - Z.of_nat (k1 + k2)) (Z.min (2000 + Z.of_nat k2) e).
Definition no_inf (f : sf) : option sf := match f with S754_infinity _ => None | f => Some f end.
Definition sf_decimal (neg : bool) (body : string) : option sf :=
  let '(ip, k1, r) := take_digits body 0%N 0 in
  let '(m, k2, r) := match r with
                     | String "."%char r' => take_digits r' ip 0
                     | _ => (ip, O, r)
                     end in
  match (k1 + k2)%nat with
  | O => None
  | S _ =>
    match parse_exp r with
    | None => None
    | Some e => no_inf (sf_dec neg m (clip_exp k1 k2 e - Z.of_nat k2))
    end
  end.
(** hexadecimal: the digits after 0x; the exponent, a power of two, is mandatory *)
Definition sf_hexdig (c : ascii) : option N :=
  let n := code (lower_ascii c) in
  if is_digit c then Some (code c - 48)%N
  else if ((97 <=? n) && (n <=? 102))%N then Some (n - 87)%N else None.
Fixpoint take_hex (s : string) (acc : N) (k : nat) : N * nat * string :=
  match s with
  | String c r =>
    match sf_hexdig c with Some d => take_hex r (acc * 16 + d)%N (S k) | None => (acc, k, s) end
  | EmptyString => (acc, k, s)
  end.
Definition sf_bin (neg : bool) (m : N) (e : Z) : sf :=
  match m with N0 => S754_zero neg | Npos p => binary_round prec64 emax64 neg p e end.
Definition sf_hex (neg : bool) (body : string) : option sf :=
  let '(ip, k1, r) := take_hex body 0%N 0 in
  let '(m, k2, r) := match r with
                     | String "."%char r' => take_hex r' ip 0
                     | _ => (ip, O, r)
                     end in
  match (k1 + k2)%nat, r with
  | S _, String c r' =>
    if Ascii.eqb c "p" || Ascii.eqb c "P" then
      match parse_expval r' with
      | None => None
      | Some e => no_inf (sf_bin neg m (e - 4 * Z.of_nat k2))
      end
    else None
  | _, _ => None
  end.
(** a number without underscores *)
Definition sf_plain (s : string) : option sf :=
  let '(neg, body) := match s with
                      | String "-"%char r => (true, r)
                      | String "+"%char r => (false, r)
                      | _ => (false, s)
                      end in
  let low := map_chars lower_ascii body in
  if String.eqb low "inf" || String.eqb low "infinity" then Some (S754_infinity neg)
  else if String.eqb (map_chars lower_ascii s) "nan" then Some S754_nan
  else if hasPrefix low "0x" then match body with String _ (String _ r) => sf_hex neg r | _ => None end
  else sf_decimal neg body.
(** strconv underscoreOK: an underscore follows a digit or the prefix of the base, and a digit
    follows it *)
Inductive usaw := USawNone | USawDigit | USawUnder | USawOther.
Fixpoint us_scan (hex : bool) (saw : usaw) (s : string) : bool :=
  match s with
  | EmptyString => match saw with USawUnder => false | _ => true end
  | String c r =>
    if (if hex then match sf_hexdig c with Some _ => true | None => false end else is_digit c) then us_scan hex USawDigit r
    else if Ascii.eqb c "_" then match saw with USawDigit => us_scan hex USawUnder r | _ => false end
    else match saw with USawUnder => false | _ => us_scan hex USawOther r end
  end.
Definition underscoreOK (s : string) : bool :=
  let body := match s with String "-"%char r => r | String "+"%char r => r | _ => s end in
  let low := map_chars lower_ascii body in
  if hasPrefix low "0b" || hasPrefix low "0o" || hasPrefix low "0x"
  then us_scan (hasPrefix low "0x") USawDigit (match body with String _ (String _ r) => r | _ => EmptyString end)
  else us_scan false USawNone body.
Fixpoint drop_under (s : string) : string :=
  match s with
  | EmptyString => EmptyString
  | String c r => if Ascii.eqb c "_" then drop_under r else String c (drop_under r)
  end.
(** Go skips the underscores while it reads the digits and then asks underscoreOK *)
Definition sf_parse (s : string) : option sf :=
  if String.eqb (drop_under s) s then sf_plain s
  else if underscoreOK s then sf_plain (drop_under s) else None.

(** ** fmt %4.3f *)
Fixpoint dec_str_fuel (fuel : nat) (n : N) (acc : string) : string :=
  match fuel with
  | O => acc
  | S f =>
    let acc := String (byte (48 + n mod 10)%N) acc in
    if (n <? 10)%N then acc else dec_str_fuel f (n / 10)%N acc
  end.
Definition dec_str (n : N) : string := dec_str_fuel (S (N.to_nat (N.log2 n))) n EmptyString.
(** |f| * 1000 rounded half to even *)
Definition sf_milli (m : positive) (e : Z) : N :=
  if 0 <=? e then (Npos m * 1000 * 2 ^ Z.to_N e)%N
  else
    let d := (2 ^ Z.to_N (- e))%N in
    let n := (Npos m * 1000)%N in
    let q := (n / d)%N in
    let r := (n mod d)%N in
    if (2 * r <? d)%N then q
    else if (d <? 2 * r)%N then (q + 1)%N
    else if N.even q then q else (q + 1)%N.
Definition pad3 (n : N) : string :=
  String (byte (48 + n / 100)%N) (String (byte (48 + (n / 10) mod 10)%N)
    (String (byte (48 + n mod 10)%N) EmptyString)).
Definition sf_fmt3 (f : sf) : string :=
  let body n := (dec_str (n / 1000)%N ++ "." ++ pad3 (n mod 1000)%N)%string in
  let sg (s : bool) := if s then "-"%string else EmptyString in
  match f with
  | S754_zero s => (sg s ++ body 0%N)%string
  | S754_finite s m e => (sg s ++ body (sf_milli m e))%string
  | S754_infinity s => if s then "-Inf"%string else "+Inf"%string
  | S754_nan => " NaN"%string
  end.

(** append on a full []string of capacity c (runtime growslice, 16 byte elements); above 512 Go
    rounds the result up to one of the allocator's sizes *)
Definition go_growcap (c : nat) : nat :=
  if (c =? 0)%nat then 1%nat
  else if (c <? 256)%nat then (2 * c)%nat
  else (c + (c + 768) / 4)%nat.

(** math.Pi and math.Pi/180, correctly rounded (from 40 decimal digits) *)
Definition pi_num : N := 31415926535897932384626433832795028841972.
Definition pi_den : positive := 10000000000000000000000000000000000000000.

Definition F64 (O : Oracles) : Env := {|
  F := sf;
  fadd := SFadd prec64 emax64; fsub := SFsub prec64 emax64;
  fmul := SFmul prec64 emax64; fdiv := SFdiv prec64 emax64;
  fneg := SFopp;
  flit := sf_lit;
  fpi := sf_rat false pi_num pi_den;
  fpi_180 := sf_rat false pi_num (pi_den * 180);
  fabs := SFabs; fsqrt := SFsqrt prec64 emax64;
  fsin := o_sin O; fcos := o_cos O; ftan := o_tan O; fatan2 := o_atan2 O;
  feqb := SFeqb; fltb := SFltb; fleb := SFleb;
  f_of_Z := sf_of_Z; f32_of_Z := sf32_of_Z;
  f_to_i32 := sf_to_i32 O; f_to_int := sf_to_int64 O; f_to_u32 := sf_to_u32 O;
  fmt_3f := sf_fmt3;
  parseFloat := sf_parse;
  isLetterU := o_isLetterU O; isNumberU := o_isNumberU O; toLowerU := o_toLowerU O;
  colorname := o_colorname O;
  growcap := go_growcap |}.

(** The oracle laws some witnesses use: sin 0 = 0 and cos 0 = 1 (exact in Go). *)
Definition trig0 (O : Oracles) : Prop :=
  o_sin O (S754_zero false) = S754_zero false /\ o_cos O (S754_zero false) = sf_lit 1 1.

(** int(NaN) is not positive: -2^63 on amd64, 0 on arm64 *)
Definition nan_low (O : Oracles) : Prop := sf_to_int64 O S754_nan <= 0.

(** A crude set of oracles, enough to run the model on examples: trigonometry is only right at 0. *)
Definition demoO : Oracles := {|
  o_sin := fun x => x; o_cos := fun _ => sf_lit 1 1; o_tan := fun x => x; o_atan2 := fun y x => y;
  o_isLetterU := fun _ => false; o_isNumberU := fun _ => false; o_toLowerU := fun s => s;
  o_colorname := fun s => if String.eqb s "red" then Some (255, 0, 0, 255)
                          else if String.eqb s "blue" then Some (0, 0, 255, 255)
                          else if String.eqb s "white" then Some (255, 255, 255, 255)
                          else if String.eqb s "black" then Some (0, 0, 0, 255) else None;
  o_int := amd64_int; o_i32 := amd64_i32; o_u32 := amd64_u32 |}.
Definition D := F64 demoO.

(** * Env: everything the modelled code takes from outside the repository.

    All model functions are parametric in a value [E : Env].  A theorem of the form
    [forall E : Env, ...] therefore holds for *every* floating point arithmetic, every
    [math.Sin], every [strconv.ParseFloat], every Unicode table, and so on; no law of
    these functions is assumed unless a theorem lists it as a hypothesis.
    [F64.v] gives the IEEE-754 binary64 instance (the one Go uses) and [RealEnv.v] the
    instance with exact real arithmetic. *)
From Verif Require Export Base.

Record Env := {
  F : Type;                                  (* float64 *)
  fadd : F -> F -> F; fsub : F -> F -> F;
  fmul : F -> F -> F; fdiv : F -> F -> F;
  fneg : F -> F;
  flit : Z -> positive -> F;                 (* the constant num/den, rounded to float64 *)
  fpi : F;                                   (* float64(math.Pi) *)
  fpi_180 : F;                               (* float64(math.Pi / 180), one rounding *)
  fabs : F -> F; fsqrt : F -> F;
  fsin : F -> F; fcos : F -> F; ftan : F -> F; fatan2 : F -> F -> F;
  feqb : F -> F -> bool; fltb : F -> F -> bool; fleb : F -> F -> bool;
  f_of_Z : Z -> F;                           (* float64(n) *)
  f32_of_Z : Z -> F;                         (* float32(n), as a float64 *)
  f_to_i32 : F -> Z;                         (* int32(f): fixed.Int26_6(f) *)
  f_to_int : F -> Z;                         (* int(f) *)
  f_to_u32 : F -> Z;                         (* uint32(f) *)
  fmt_3f : F -> string;                      (* fmt.Sprintf("%4.3f", f) *)
  parseFloat : string -> option F;           (* strconv.ParseFloat(s, 64); None = error *)
  isLetterU : N -> bool;                     (* unicode.IsLetter on runes >= 0x80 *)
  isNumberU : N -> bool;                     (* unicode.IsNumber on runes >= 0x80 *)
  toLowerU : string -> string;               (* strings.ToLower on strings with a byte >= 0x80 *)
  colorname : string -> option (Z * Z * Z * Z);   (* colornames.Map: r, g, b, a bytes *)
  growcap : nat -> nat                       (* capacity chosen by append for a full slice of that capacity *)
}.

Section Derived.
Context (E : Env).

Definition fnum (z : Z) : F E := flit E z 1.
Definition f0 : F E := fnum 0.
Definition f1 : F E := fnum 1.

(** unicode.IsLetter *)
Definition isLetter (r : N) : bool :=
  if (r <? 128)%N then
    ((65 <=? r) && (r <=? 90) || (97 <=? r) && (r <=? 122))%N
  else isLetterU E r.

(** unicode.IsNumber (ASCII: the ten digits) *)
Definition isNumber (r : N) : bool :=
  if (r <? 128)%N then ((48 <=? r) && (r <=? 57))%N else isNumberU E r.

(** strings.ToLower *)
Definition toLower (s : string) : string :=
  if all_chars is_ascii s then map_chars lower_ascii s else toLowerU E s.

End Derived.

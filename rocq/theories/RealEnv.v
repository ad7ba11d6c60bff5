(** * RealEnv: the instance of [Env] with exact real arithmetic

    Numbers are real numbers, sin, cos and tan are those of the standard library, and atan2 is
    the angle of a point.  Parsing, printing, Unicode tables and the like stay parameters. *)
From Coq Require Import Reals ZArith Lra.
From Flocq Require Import Core.Zaux Core.Raux.
From Verif Require Export Render.
Local Open Scope R_scope.

(** the angle of the point (x, y), between -PI and PI *)
Definition atan2 (y x : R) : R :=
  if Rlt_dec 0 x then atan (y / x)
  else if Rlt_dec x 0 then (if Rle_dec 0 y then atan (y / x) + PI else atan (y / x) - PI)
  else if Rlt_dec 0 y then PI / 2
  else if Rlt_dec y 0 then - (PI / 2)
  else 0.

Record ROracles := {
  r_fmt : R -> string; r_parse : string -> option R; r_f32 : Z -> R;
  r_isLetterU : N -> bool; r_isNumberU : N -> bool; r_toLowerU : string -> string;
  r_colorname : string -> option (Z * Z * Z * Z); r_growcap : nat -> nat }.

(** Conversions to integers truncate, then wrap. *)
Definition RealEnv (O : ROracles) : Env := {|
  F := R;
  fadd := Rplus; fsub := Rminus; fmul := Rmult; fdiv := Rdiv; fneg := Ropp;
  flit := fun n d => IZR n / IZR (Zpos d);
  fpi := PI; fpi_180 := PI / 180;
  fabs := Rabs; fsqrt := sqrt;
  fsin := sin; fcos := cos; ftan := tan; fatan2 := atan2;
  feqb := fun a b => if Req_EM_T a b then true else false;
  fltb := fun a b => if Rlt_dec a b then true else false;
  fleb := fun a b => if Rle_dec a b then true else false;
  f_of_Z := IZR; f32_of_Z := r_f32 O;
  f_to_i32 := fun x => wrap32 (Ztrunc x); f_to_int := Ztrunc; f_to_u32 := fun x => Z.modulo (Ztrunc x) 4294967296;
  fmt_3f := r_fmt O; parseFloat := r_parse O;
  isLetterU := r_isLetterU O; isNumberU := r_isNumberU O; toLowerU := r_toLowerU O;
  colorname := r_colorname O; growcap := r_growcap O |}.

Lemma fnum_real O z : fnum (RealEnv O) z = IZR z.
Proof. unfold fnum. cbn. lra. Qed.

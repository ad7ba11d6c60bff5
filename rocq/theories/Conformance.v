(** * Conformance: the project's own tests, run on the model
    Each [Example] below repeats one test of /repo/*_test.go on the model over binary64.  They are
    tests of the model against the expectations the project's authors wrote down, not proofs of
    properties.  The trigonometric functions are computed here in fixed point and rounded, so that
    arcs and rotations take the values they take in Go up to the last bits. *)
From Coq Require Import Floats.SpecFloat.
From Verif Require Import F64 ConfData.
Local Open Scope Z_scope.

(** ** Trigonometry with 160 fractional bits *)
Definition P : Z := 160.
Definition one : Z := Z.shiftl 1 P.
Definition pi_fix : Z := Z.of_N pi_num * one / Zpos pi_den.
Definition fmulz (a b : Z) : Z := Z.shiftr (a * b) P.
Definition fix_of (x : sf) : option Z :=
  match x with
  | S754_zero _ => Some 0
  | S754_finite s m e => Some (Z.shiftl (if s then Zneg m else Zpos m) (e + P))
  | _ => None
  end.
Definition of_fix (z : Z) : sf := binary_normalize prec64 emax64 z (- P) false.
(** sum of t/k(k+1).. alternating: the Taylor series of sine (k=1, t=x) and cosine (k=0, t=1) *)
Fixpoint taylor (n : nat) (k x2 t : Z) : Z :=
  match n with
  | O => 0
  | S n => t + taylor n (k + 2) x2 (- (fmulz t x2 / ((k + 1) * (k + 2))))
  end.
Definition reduce (x : Z) : Z := let m := x mod (2 * pi_fix) in if pi_fix <? m then m - 2 * pi_fix else m.
Definition sin_fix (x : Z) : Z := let r := reduce x in taylor 40 1 (fmulz r r) r.
Definition cos_fix (x : Z) : Z := let r := reduce x in taylor 40 0 (fmulz r r) one.
Fixpoint atan_series (n : nat) (k x2 t : Z) : Z :=
  match n with O => 0 | S n => t / k + atan_series n (k + 2) x2 (- fmulz t x2) end.
(** arctangent for |t| <= 1, halving the angle three times *)
Definition half_angle (t : Z) : Z := t * one / (one + Z.sqrt (one * one + t * t)).
Definition atan_fix (t : Z) : Z := 8 * (let u := half_angle (half_angle (half_angle t)) in atan_series 50 1 (fmulz u u) u).
Definition atan2_fix (y x : Z) : Z :=
  if (x =? 0) && (y =? 0) then 0
  else if Z.abs y <=? Z.abs x then
    let a := atan_fix (y * one / x) in
    if 0 <=? x then a else if 0 <=? y then a + pi_fix else a - pi_fix
  else let a := atan_fix (x * one / y) in (if 0 <? y then pi_fix / 2 else - (pi_fix / 2)) - a.
Definition lift1 (f : Z -> Z) (x : sf) : sf := match fix_of x with Some z => of_fix (f z) | None => S754_nan end.

Definition confO : Oracles := {|
  o_sin := lift1 sin_fix; o_cos := lift1 cos_fix;
  o_tan := fun x => match fix_of x with Some z => of_fix (sin_fix z * one / cos_fix z) | None => S754_nan end;
  o_atan2 := fun y x => match fix_of y, fix_of x with Some a, Some b => of_fix (atan2_fix a b) | _, _ => S754_nan end;
  o_isLetterU := fun _ => false; o_isNumberU := fun _ => false; o_toLowerU := fun s => s;
  (** the colour names that occur in the test files *)
  o_colorname := fun s =>
    match find (fun p => String.eqb (fst p) s)
      [("black", (0, 0, 0)); ("white", (255, 255, 255)); ("red", (255, 0, 0)); ("lime", (0, 255, 0)); ("blue", (0, 0, 255));
       ("green", (0, 128, 0)); ("yellow", (255, 255, 0)); ("cyan", (0, 255, 255)); ("orange", (255, 165, 0)); ("silver", (192, 192, 192));
       ("springgreen", (0, 255, 127)); ("seagreen", (46, 139, 87)); ("goldenrod", (218, 165, 32)); ("cornflowerblue", (100, 149, 237));
       ("powderblue", (176, 224, 230)); ("darkblue", (0, 0, 139));
       ("pink", (255, 192, 203)); ("lemonchiffon", (255, 250, 205)); ("purple", (128, 0, 128)); ("turquoise", (64, 224, 208))]%string with
    | Some (_, (r, g, b)) => Some (r, g, b, 255)
    | None => None
    end;
  o_int := amd64_int; o_i32 := amd64_i32; o_u32 := amd64_u32 |}.
Definition K := F64 confO.

(** |a - n/d| <= 1e-9 *)
Definition almost (a : sf) (n : Z) (d : positive) : bool :=
  SFleb (SFabs (SFsub prec64 emax64 a (sf_lit n d))) (sf_lit 1 1000000000).

Example sine_and_friends :
  almost (fsin K (sf_lit 1 1)) 8414709848079 10000000000000
  && almost (fcos K (sf_lit (-20) 1)) 4080820618134 10000000000000
  && almost (ftan K (sf_lit 1 1)) 15574077246549 10000000000000
  && almost (fatan2 K (sf_lit 1 1) (sf_lit (-2) 1)) 26779450445890 10000000000000
  && almost (fatan2 K (sf_lit (-3) 1) (sf_lit 1 1)) (-12490457723983) 10000000000000 = true.
Proof. vm_compute. reflexivity. Qed.

(** ** units_test.go:15-41 TestUnits *)
Definition unit_ok (perc : bool) (s : string) (n : Z) (d : positive) : bool :=
  match parseUnit (E := K) s with Ret (v, p) => almost v n d && Bool.eqb p perc | _ => false end.
Example test_units :
  unit_ok true "1.4%" 14 10 && unit_ok false "1." 1 1 && unit_ok false "1.px" 1 1 && unit_ok false "1.2" 12 10
  && unit_ok false "1.2pt" 16 10 && unit_ok false "10 px" 10 1 && unit_ok false "10 cm" 3779527559055 10000000000
  && unit_ok false "10 mm" 377952755906 10000000000 && unit_ok false "10 in" 960 1
  && unit_ok false "10 pt" 133333333333 10000000000 && unit_ok false "10 pc" 160 1 = true.
Proof. vm_compute. reflexivity. Qed.

(** ** parse_path_test.go:5-60 TestReadFloat: exact values *)
Definition reads (s : string) (vs : list (Z * positive)) : bool :=
  match readFloat (E := K) s (pc0 StrictErrorMode) with
  | (c, Ret _) => Nat.eqb (List.length (pc_points c)) (List.length vs)
                  && forallb (fun p => SFeqb (fst p) (sf_lit (fst (snd p)) (snd (snd p)))) (combine (pc_points c) vs)
  | _ => false
  end.
Example test_readFloat :
  reads "23.4.56" [(234, 10%positive); (56, 100%positive)] && reads "23.4" [(234, 10%positive)] && reads "23" [(23, 1%positive)]
  && reads ".4" [(4, 10%positive)] && reads "23.4.56.67.32" [(234, 10%positive); (56, 100%positive); (67, 100%positive); (32, 100%positive)] = true.
Proof. vm_compute. reflexivity. Qed.

(** ** parse_test.go *)
(** number of paths and masks, or the reason there are none *)
Inductive verdict := Parsed (paths masks logged : nat) | Failed | Panicked | OutOfFuel.
Definition run (ts : list token) : verdict :=
  match parse (E := K) 3000 WarnErrorMode ts TermEOF with
  | PSvg s None log => Parsed (List.length (sv_paths s)) (List.length (sv_masks s)) (List.length log)
  | PSvg _ (Some _) _ | PNil _ => Failed
  | PPanic => Panicked
  | PNoFuel => OutOfFuel
  end.
Definition parses (ts : list token) : bool := match run ts with Parsed _ _ _ => true | _ => false end.

(** parse_test.go:16-23 TestLandscapeIcons *)
Example test_landscape_icons : forallb parses [t_beach; t_cape; t_iceberg; t_island; t_mountains; t_sea; t_trees; t_village] = true.
Proof. vm_compute. reflexivity. Qed.
(** parse_test.go:25-32 TestTestIcons *)
Example test_test_icons : forallb parses [t_astronaut; t_jupiter; t_lander; t_school_bus; t_telescope; t_content_cut_light; t_defs; t_24px] = true.
Proof. vm_compute. reflexivity. Qed.
(** parse_test.go:34-48 TestStrokeIcons and 50-52 TestPercentages *)
Example test_stroke_icons :
  forallb parses [t_OpacityStrokeDashTest; t_OpacityStrokeDashTest2; t_OpacityStrokeDashTest3; t_TestShapes; t_TestShapes2; t_TestShapes3;
                  t_TestShapes4; t_TestShapes5; t_TestShapes6; t_TestPercentages] = true.
Proof. vm_compute. reflexivity. Qed.
(** parse_test.go:54-59 TestInvalidXML: the decoder delivers one text and then io.EOF *)
Example test_invalid_xml : match parse (E := K) 10 StrictErrorMode [TChar "dummy"] TermEOF with PNil _ => true | _ => false end = true.
Proof. vm_compute. reflexivity. Qed.
(** parse_test.go:61-66 TestMask *)
Example test_mask : match run t_avatar with Parsed _ masks _ => masks = 4%nat | _ => False end.
Proof. vm_compute. reflexivity. Qed.

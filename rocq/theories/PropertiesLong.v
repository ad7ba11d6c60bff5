(** * PropertiesLong: shorthands of path data (C56) *)
From Verif Require Import F64 RealEnv Geom PathCur SpecLong ProofsLong ProofsF64 ExPath.
Local Open Scope go_scope.

(** ** C56: path data and its longhand (absolute M, L, Q, C and Z with one argument set each) draw the same *)
Theorem C56_longhand : forall (E : Env) (add_comm : forall a b, fadd E a b = fadd E b a) (s t : string) (cs : list (cmd E)) (c : pcur E),
  spells E s cs -> closes_open E false cs = true -> spells E t (longhand E (pen0 E) cs) ->
  forallb (long_cmd E) (longhand E (pen0 E) cs) = true
  /\ exists c1 c2, compilePath s c = (c1, Ret tt) /\ compilePath t c = (c2, Ret tt) /\ pc_path c1 = pc_path c2
    /\ (pc_placeX c1, pc_placeY c1) = (pc_placeX c2, pc_placeY c2) /\ pc_log c1 = pc_log c2.
Proof. exact written_out. Qed.
Print Assumptions C56_longhand.
(** Two texts with the same longhand draw the same, whatever letters and signs they use. *)
Theorem C56_alike : forall (E : Env) (add_comm : forall a b, fadd E a b = fadd E b a) (s t : string) (cs ds : list (cmd E)) (c : pcur E),
  spells E s cs -> spells E t ds -> closes_open E false cs = true -> longhand E (pen0 E) cs = longhand E (pen0 E) ds ->
  exists c1 c2, compilePath s c = (c1, Ret tt) /\ compilePath t c = (c2, Ret tt) /\ pc_path c1 = pc_path c2
    /\ (pc_placeX c1, pc_placeY c1) = (pc_placeX c2, pc_placeY c2) /\ pc_log c1 = pc_log c2.
Proof. exact spelled_alike. Qed.
Print Assumptions C56_alike.
Theorem C56_float64 : forall (O : Oracles) (s t : string) (cs : list (cmd (F64 O))) (c : pcur (F64 O)),
  spells (F64 O) s cs -> closes_open (F64 O) false cs = true -> spells (F64 O) t (longhand (F64 O) (pen0 (F64 O)) cs) ->
  exists c1 c2, compilePath s c = (c1, Ret tt) /\ compilePath t c = (c2, Ret tt) /\ pc_path c1 = pc_path c2
    /\ (pc_placeX c1, pc_placeY c1) = (pc_placeX c2, pc_placeY c2) /\ pc_log c1 = pc_log c2.
Proof. exact (fun O s t cs c H1 H2 H3 => proj2 (written_out (F64 O) (F64_add_comm O) s t cs c H1 H2 H3)). Qed.
Print Assumptions C56_float64.
(** m1 2 3 4h5v-1q1 1 2 0t2 0s1 1 3 3z is short for M1 2L4 6L9 6L9 5Q10 6 11 5Q12 4 13 5C13 5 14 6 16 8Z *)
Definition short_cmds : list (cmd D) :=
  [MoveTo true (V 1 1, V 2 1) [(V 3 1, V 4 1)]; HLineTo true (V 5 1) []; VLineTo true (V (-1) 1) []; QuadTo true ((V 1 1, V 1 1), (V 2 1, V 0 1)) [];
   SmoothQuadTo true (V 2 1, V 0 1) []; SmoothCubicTo true ((V 1 1, V 1 1), (V 3 1, V 3 1)) []; ClosePath].
Definition long_cmds : list (cmd D) :=
  [MoveTo false (V 1 1, V 2 1) []; LineTo false (V 4 1, V 6 1) []; LineTo false (V 9 1, V 6 1) []; LineTo false (V 9 1, V 5 1) []; QuadTo false ((V 10 1, V 6 1), (V 11 1, V 5 1)) [];
   QuadTo false ((V 12 1, V 4 1), (V 13 1, V 5 1)) []; CubicTo false ((V 13 1, V 5 1), (V 14 1, V 6 1), (V 16 1, V 8 1)) []; ClosePath].
Ltac nums l := exists l, ""%string; vm_compute; auto.
Definition n1 (s : string) (v : string) : string * numeral := (s, num NoSign v None).
Lemma short_spells : spells D "m1 2 3 4h5v-1q1 1 2 0t2 0s1 1 3 3z" short_cmds.
Proof.
  exists ""%string, "m1 2 3 4h5v-1q1 1 2 0t2 0s1 1 3 3z"%string. split; [reflexivity|]. split; [reflexivity|]. unfold short_cmds.
  apply (spells_cons D (MoveTo true (V 1 1, V 2 1) [(V 3 1, V 4 1)]) "1 2 3 4" "h5v-1q1 1 2 0t2 0s1 1 3 3z"); [nums [n1 "" "1"; n1 " " "2"; n1 " " "3"; n1 " " "4"]%string|].
  apply (spells_cons D (HLineTo true (V 5 1) []) "5" "v-1q1 1 2 0t2 0s1 1 3 3z"); [nums [n1 "" "5"]%string|].
  apply (spells_cons D (VLineTo true (V (-1) 1) []) "-1" "q1 1 2 0t2 0s1 1 3 3z"); [nums [(""%string, num Minus "1" None)]|].
  apply (spells_cons D (QuadTo true ((V 1 1, V 1 1), (V 2 1, V 0 1)) []) "1 1 2 0" "t2 0s1 1 3 3z"); [nums [n1 "" "1"; n1 " " "1"; n1 " " "2"; n1 " " "0"]%string|].
  apply (spells_cons D (SmoothQuadTo true (V 2 1, V 0 1) []) "2 0" "s1 1 3 3z"); [nums [n1 "" "2"; n1 " " "0"]%string|].
  apply (spells_cons D (SmoothCubicTo true ((V 1 1, V 1 1), (V 3 1, V 3 1)) []) "1 1 3 3" "z"); [nums [n1 "" "1"; n1 " " "1"; n1 " " "3"; n1 " " "3"]%string|].
  apply (spells_close_lower D "" ""); [reflexivity|apply spells_nil].
Qed.
Lemma long_spells : spells D "M1 2L4 6L9 6L9 5Q10 6 11 5Q12 4 13 5C13 5 14 6 16 8Z" long_cmds.
Proof.
  exists ""%string, "M1 2L4 6L9 6L9 5Q10 6 11 5Q12 4 13 5C13 5 14 6 16 8Z"%string. split; [reflexivity|]. split; [reflexivity|]. unfold long_cmds.
  apply (spells_cons D (MoveTo false (V 1 1, V 2 1) []) "1 2" "L4 6L9 6L9 5Q10 6 11 5Q12 4 13 5C13 5 14 6 16 8Z"); [nums [n1 "" "1"; n1 " " "2"]%string|].
  apply (spells_cons D (LineTo false (V 4 1, V 6 1) []) "4 6" "L9 6L9 5Q10 6 11 5Q12 4 13 5C13 5 14 6 16 8Z"); [nums [n1 "" "4"; n1 " " "6"]%string|].
  apply (spells_cons D (LineTo false (V 9 1, V 6 1) []) "9 6" "L9 5Q10 6 11 5Q12 4 13 5C13 5 14 6 16 8Z"); [nums [n1 "" "9"; n1 " " "6"]%string|].
  apply (spells_cons D (LineTo false (V 9 1, V 5 1) []) "9 5" "Q10 6 11 5Q12 4 13 5C13 5 14 6 16 8Z"); [nums [n1 "" "9"; n1 " " "5"]%string|].
  apply (spells_cons D (QuadTo false ((V 10 1, V 6 1), (V 11 1, V 5 1)) []) "10 6 11 5" "Q12 4 13 5C13 5 14 6 16 8Z"); [nums [n1 "" "10"; n1 " " "6"; n1 " " "11"; n1 " " "5"]%string|].
  apply (spells_cons D (QuadTo false ((V 12 1, V 4 1), (V 13 1, V 5 1)) []) "12 4 13 5" "C13 5 14 6 16 8Z"); [nums [n1 "" "12"; n1 " " "4"; n1 " " "13"; n1 " " "5"]%string|].
  apply (spells_cons D (CubicTo false ((V 13 1, V 5 1), (V 14 1, V 6 1), (V 16 1, V 8 1)) []) "13 5 14 6 16 8" "Z"); [nums [n1 "" "13"; n1 " " "5"; n1 " " "14"; n1 " " "6"; n1 " " "16"; n1 " " "8"]%string|].
  apply (spells_cons D ClosePath "" ""); [exists [], ""%string; repeat split|apply spells_nil].
Qed.
Lemma long_is : longhand D (pen0 D) short_cmds = long_cmds.
Proof.
  unfold short_cmds, long_cmds. cbn [longhand longhand_of each app exec many line hline vline quad smooth_quad cubic smooth_cubic fst snd absolute at_ from last_ctrl mirror pen0].
  repeat match goal with |- @eq (list _) (_ :: _) (_ :: _) => apply (f_equal2 cons) end; try reflexivity;
    repeat match goal with
    | |- MoveTo _ _ _ = MoveTo _ _ _ => apply (f_equal (fun p => MoveTo false p []))
    | |- LineTo _ _ _ = LineTo _ _ _ => apply (f_equal (fun p => LineTo false p []))
    | |- QuadTo _ _ _ = QuadTo _ _ _ => apply (f_equal (fun p => QuadTo false p []))
    | |- CubicTo _ _ _ = CubicTo _ _ _ => apply (f_equal (fun p => CubicTo false p []))
    | |- (_, _) = (_, _) => apply (f_equal2 pair)
    end;
    match goal with |- ?a = ?b => change (@eq SpecFloat.spec_float a b) end; vm_compute; reflexivity.
Qed.
Example C56_example : spells D "m1 2 3 4h5v-1q1 1 2 0t2 0s1 1 3 3z" short_cmds /\ closes_open D false short_cmds = true
  /\ spells D "M1 2L4 6L9 6L9 5Q10 6 11 5Q12 4 13 5C13 5 14 6 16 8Z" (longhand D (pen0 D) short_cmds)
  /\ List.length (draws D (f0 D, f0 D) short_cmds) = 8.
Proof. split; [exact short_spells|]. split; [reflexivity|]. split; [rewrite long_is; exact long_spells|]. vm_compute. reflexivity. Qed.

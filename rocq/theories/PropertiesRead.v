(** * PropertiesRead: path data read and drawn in float64 against its exact meaning (C57) *)
From Coq Require Import ZArith Lia Reals Lra Floats.SpecFloat.
From Flocq Require Import Core.Core.
From Verif Require Import F64 RealEnv PathCur SpecClose SpecRead ProofsFlocq ProofsClose ProofsRead ProofsReadPath.
Local Open Scope R_scope.

(** ** C57: path data read and drawn in float64 lies within 1/64 of its exact meaning *)
(** Every numeral is read as the float64 nearest to the number it stands for, whatever its length, if its
    exponent is below 10000. *)
Theorem C57_numbers : forall (O : Oracles) (n : numeral), legal_numeral n = true -> short_exp n = true -> Rabs (num_exact n) <= bpow radix2 900 ->
  exists x, num_value (F64 O) n = Some x /\ finite64 x /\ value64 x = round radix2 (FLT_exp (-1074) 53) ZnearestE (num_exact n).
Proof. exact number_nearest. Qed.
Print Assumptions C57_numbers.
(** Digits of longer exponents are skipped: a numeral that stands for 1 is read as 0. *)
Theorem C57_exponent_limit : forall (O : Oracles), exists n, legal_numeral n = true /\ num_exact n = 1 /\ exists x, num_value (F64 O) n = Some x /\ value64 x = 0.
Proof. exact long_exponent. Qed.
Print Assumptions C57_exponent_limit.
(** A path of [k] argument sets whose exact coordinates stay within 2^17 is drawn within (1 + k²/2^26)/64 of its exact drawing. *)
Theorem C57_path : forall (O : Oracles) (Q : ROracles) (s : string) (cs : list (cmd (RealEnv Q))) (c : pcur (F64 O)),
  reads_exactly Q -> spells (RealEnv Q) s cs -> closes_open (RealEnv Q) false cs = true -> coords_upto Q (2 ^ 17) cs -> (sets cs <= 2 ^ 20)%Z ->
  upto O 17 (pc_curX c) -> upto O 17 (pc_curY c) ->
  exists c', compilePath s c = (c', Ret tt) /\ pc_log c' = pc_log c
    /\ Forall2 (op_within (1 + sets cs * sets cs / 2 ^ 26)) (pc_path c') (draws (RealEnv Q) (value64 (pc_curX c), value64 (pc_curY c)) cs).
Proof. exact read_close. Qed.
Print Assumptions C57_path.
(** With fewer than 8192 argument sets the drawing is off by at most 1/64. *)
Theorem C57_short : forall (O : Oracles) (Q : ROracles) (s : string) (cs : list (cmd (RealEnv Q))) (c : pcur (F64 O)),
  reads_exactly Q -> spells (RealEnv Q) s cs -> closes_open (RealEnv Q) false cs = true -> coords_upto Q (2 ^ 17) cs -> (sets cs < 8192)%Z ->
  upto O 17 (pc_curX c) -> upto O 17 (pc_curY c) ->
  exists c', compilePath s c = (c', Ret tt) /\ pc_log c' = pc_log c
    /\ Forall2 (op_within 1) (pc_path c') (draws (RealEnv Q) (value64 (pc_curX c), value64 (pc_curY c)) cs).
Proof. exact read_close_short. Qed.
Print Assumptions C57_short.

(** m.1.2l.3.3-1e-2,7q1 1 2 .5t.1 0z: tenths are not float64 numbers *)
Definition exactQ : ROracles := {| r_fmt := fun _ => ""%string; r_parse := exact_parse; r_f32 := fun _ => 0; r_isLetterU := fun _ => false; r_isNumberU := fun _ => false;
  r_toLowerU := fun s => s; r_colorname := fun _ => None; r_growcap := fun n => n |}.
Definition tenths : list (cmd (RealEnv exactQ)) :=
  [@MoveTo (RealEnv exactQ) true (1 / 10, 2 / 10) []; @LineTo (RealEnv exactQ) true (3 / 10, 3 / 10) [(- 1 / 100, 7)]; @QuadTo (RealEnv exactQ) true ((1, 1), (2, 5 / 10)) [];
   @SmoothQuadTo (RealEnv exactQ) true (1 / 10, 0) []; ClosePath].
Lemma exactQ_reads : reads_exactly exactQ. Proof. apply exact_reads. reflexivity. Qed.
Lemma exact_value n v : legal_numeral n = true -> short_exp n = true -> num_exact n = v -> num_value (RealEnv exactQ) n = Some v.
Proof. intros H Hs <-. unfold num_value. cbn [parseFloat RealEnv fmul flit]. rewrite (exactQ_reads n H), Hs. f_equal. field. Qed.
Ltac exact_nums l := exists l, ""%string; split; [reflexivity|]; split; [reflexivity|]; split; [reflexivity|]; cbn [map snd args flat_map p2 p1 app fst];
  repeat (apply (f_equal2 cons); [apply exact_value; [reflexivity|reflexivity|]; unfold num_exact; cbn; change (Pos.to_nat 1) with 1%nat; change (Pos.to_nat 2) with 2%nat; field|]); reflexivity.
Definition tenths_text : string := "m.1.2l.3.3-1e-2,7q1 1 2 .5t.1 0z".
Lemma tenths_spell : spells (RealEnv exactQ) tenths_text tenths.
Proof.
  exists ""%string, tenths_text. split; [reflexivity|]. split; [reflexivity|]. unfold tenths.
  apply (spells_cons (RealEnv exactQ) (@MoveTo (RealEnv exactQ) true (1 / 10, 2 / 10) []) ".1.2" "l.3.3-1e-2,7q1 1 2 .5t.1 0z");
    [exact_nums [(""%string, mkNum NoSign "" (Some "1"%string) None); (""%string, mkNum NoSign "" (Some "2"%string) None)]|].
  apply (spells_cons (RealEnv exactQ) (@LineTo (RealEnv exactQ) true (3 / 10, 3 / 10) [(- 1 / 100, 7)]) ".3.3-1e-2,7" "q1 1 2 .5t.1 0z");
    [exact_nums [(""%string, mkNum NoSign "" (Some "3"%string) None); (""%string, mkNum NoSign "" (Some "3"%string) None); (""%string, mkNum Minus "1" None (Some (true, "2"%string))); (","%string, mkNum NoSign "7" None None)]|].
  apply (spells_cons (RealEnv exactQ) (@QuadTo (RealEnv exactQ) true ((1, 1), (2, 5 / 10)) []) "1 1 2 .5" "t.1 0z");
    [exact_nums [(""%string, mkNum NoSign "1" None None); (" "%string, mkNum NoSign "1" None None); (" "%string, mkNum NoSign "2" None None); (" "%string, mkNum NoSign "" (Some "5"%string) None)]|].
  apply (spells_cons (RealEnv exactQ) (@SmoothQuadTo (RealEnv exactQ) true (1 / 10, 0) []) ".1 0" "z");
    [exact_nums [(""%string, mkNum NoSign "" (Some "1"%string) None); (" "%string, mkNum NoSign "0" None None)]|].
  apply (spells_close_lower (RealEnv exactQ) "" ""); [reflexivity|apply spells_nil].
Qed.
Lemma tenths_small : coords_upto exactQ (2 ^ 17) tenths.
Proof.
  intros c v Hc Hv. unfold tenths in Hc. cbn [longhand longhand_of each app exec many line hline vline quad smooth_quad cubic smooth_cubic fst snd absolute at_ from last_ctrl mirror pen0] in Hc. rewrite ?fnum_real in Hc. cbn [fadd fsub fmul RealEnv List.In] in Hc.
  repeat (destruct Hc as [<-|Hc]; [cbn [args flat_map p1 p2 app fst snd List.In] in Hv; repeat (destruct Hv as [<-|Hv]; [apply Rabs_le; unfold mirror; cbn [fst snd fadd fsub fmul RealEnv]; rewrite ?fnum_real; lra|]); contradiction|]). contradiction.
Qed.
Example C57_example : forall (O : Oracles) (c : pcur (F64 O)), pc_curX c = fnum (F64 O) 0 -> pc_curY c = fnum (F64 O) 0 ->
  reads_exactly exactQ /\ spells (RealEnv exactQ) tenths_text tenths /\ closes_open (RealEnv exactQ) false tenths = true /\ coords_upto exactQ (2 ^ 17) tenths
  /\ (sets tenths < 8192)%Z /\ upto O 17 (pc_curX c) /\ upto O 17 (pc_curY c) /\ List.length (draws (RealEnv exactQ) (0, 0) tenths) = 6%nat
  /\ legal_numeral (mkNum NoSign "" (Some "1"%string) None) = true /\ short_exp (mkNum NoSign "" (Some "1"%string) None) = true /\ num_exact (mkNum NoSign "" (Some "1"%string) None) = 1 / 10.
Proof.
  intros O c -> ->. split; [exact exactQ_reads|]. split; [exact tenths_spell|]. split; [reflexivity|]. split; [exact tenths_small|]. split; [reflexivity|].
  assert (upto O 17 (fnum (F64 O) 0)). { split; [split; [reflexivity|exact I]|]. change (value64 (fnum (F64 O) 0)) with 0. rewrite Rabs_R0. apply pow_le. lra. }
  split; [assumption|]. split; [assumption|]. split; [reflexivity|]. split; [reflexivity|]. split; [reflexivity|]. unfold num_exact. cbn. change (Pos.to_nat 1) with 1%nat. field.
Qed.

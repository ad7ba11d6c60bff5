(** * PropertiesMeasure: shape elements in float64 against their exact meaning (C59) *)
From Coq Require Import ZArith Lia Reals Lra Floats.SpecFloat.
From Flocq Require Import Core.Core.
From Verif Require Import F64 RealEnv SpecClose SpecMeasure SpecLift ProofsFlocq ProofsClose ProofsMeasure ExTree PropertiesShape PropertiesStyle PropertiesTree PropertiesRead.
Local Open Scope R_scope.

(** ** C59: shape elements drawn in float64 lie within 1/64 of their exact meaning *)
(** Whatever came before, a line, polyline, polygon, path, rect, circle or ellipse element, with lengths in any unit and percentages of the
    view box, is drawn as the operations its attributes stand for in exact arithmetic, every coordinate within 1/64. *)
Theorem C59_element : forall (O : Oracles) (Q : ROracles), trig0 O -> reads_exactly Q ->
  forall (fuel : nat) (name : string) (attrs : list attr) (c : cursor (F64 O)) (p : path),
  pc_path (c_pc c) = [] -> meant O Q (sv_viewBox (c_svg c)) (offset c) name attrs p ->
  exists q, element_draws fuel name attrs c q /\ Forall2 (op_within 1) q p.
Proof. exact meant_element. Qed.
Print Assumptions C59_element.
(** A document of such elements, with groups, definitions, uses, masks and gradients, is parsed, and every outline stored
    is within 1/64 of the exact outline of its elements. *)
Theorem C59_document : forall (O : Oracles) (Q : ROracles), trig0 O -> reads_exactly Q -> name_table (F64 O) ->
  forall (fuel : nat) (mode : errorMode) (lenient : bool) (dep : nat) (ns : list node) (vb : bounds (F64 O)) (w : world (F64 O)),
  (dep <= fuel)%nat -> document (F64 O) (meant O Q) lenient dep ns vb w -> (lenient = true -> mode <> StrictErrorMode) ->
  exists s log, parse (S fuel) mode (flat_map tokens ns) TermEOF = PSvg s None log /\ shows (F64 O) (nearly O Q) vb w s
    /\ sv_width s = text_attr "width" "" (root_attrs ns) /\ sv_height s = text_attr "height" "" (root_attrs ns).
Proof. exact meant_document. Qed.
Print Assumptions C59_document.

(** a rectangle 1 cm high, a tenth of the view box from the left; neither 37.8 nor 1.1 is a float64 number *)
Definition box_attrs : list attr := [mkAttr "x" "10%"; mkAttr "y" ".1"; mkAttr "width" "1.1"; mkAttr "height" "1 cm "].
Lemma box_upto : (upto demoO 17 (bW ex_box) /\ upto demoO 17 (bH ex_box)) /\ value64 (bW ex_box) = 200 /\ value64 (bH ex_box) = 100.
Proof.
  destruct (num_val demoO 200 ltac:(lia)) as [A B], (num_val demoO 100 ltac:(lia)) as [A' B'].
  split; [|split; [exact B|exact B']]. split; (split; [assumption|]).
  - change (value64 (bW ex_box)) with (value64 (fnum (F64 demoO) 200)). rewrite B. apply Rabs_le. lra.
  - change (value64 (bH ex_box)) with (value64 (fnum (F64 demoO) 100)). rewrite B'. apply Rabs_le. lra.
Qed.
Lemma at_origin : upto demoO 17 (fst (origin D)) /\ upto demoO 17 (snd (origin D)).
Proof. assert (upto demoO 17 (fnum D 0)). { split; [split; [reflexivity|exact I]|]. change (value64 (fnum D 0)) with 0. rewrite Rabs_R0. apply pow_le. lra. } split; assumption. Qed.
Lemma exact_box : bW (ex_bounds demoO exactQ ex_box) = 200 /\ bH (ex_bounds demoO exactQ ex_box) = 100.
Proof. exact (proj2 box_upto). Qed.
Ltac real_len := unfold num_exact, length_value, full, px_per; cbn [n_sign n_int n_frac n_exp decimal append String.length Z.of_nat Pos.of_succ_nat fst snd fmul fdiv flit RealEnv]; rewrite ?fnum_real, ?(proj1 exact_box), ?(proj2 exact_box); cbn; change (Pos.to_nat 1) with 1%nat.
Ltac len n m u r v := eexists; split; [exists ""%string, n, m, u, r; split; [reflexivity|]; do 5 (split; [reflexivity|]); split; [discriminate|];
  split; [real_len; apply Rabs_le; lra|]; split; [|apply Rabs_le; instantiate (1 := v); lra]; real_len; lra|reflexivity].
Lemma box_meant : exists p, meant demoO exactQ ex_box (origin D) "rect" box_attrs p /\ List.length p = 5%nat.
Proof.
  eexists. split.
  - split; [exact (proj1 box_upto)|]. split; [exact at_origin|].
    left. eapply (xs_rect exactQ _ _ box_attrs 20 (1 / 10) (11 / 10) (9600 / 254) 0 0).
    + len (mkNum NoSign "10" None None) ""%string UPercent ""%string 20.
    + len (mkNum NoSign "" (Some "1"%string) None) ""%string UNone ""%string (1 / 10).
    + len (mkNum NoSign "1" (Some "1"%string) None) ""%string UNone ""%string (11 / 10).
    + len (mkNum NoSign "1" None None) " "%string UCm " "%string (9600 / 254).
    + reflexivity.
    + reflexivity.
    + rewrite Rabs_pos_eq; lra.
    + rewrite Rabs_pos_eq; lra.
    + lra.
    + lra.
  - reflexivity.
Qed.
Example C59_example : trig0 demoO /\ reads_exactly exactQ /\ name_table D /\ exists w,
  document D (meant demoO exactQ) false 0 [Elem "svg" [mkAttr "viewBox" "0 0 200 100"; mkAttr "width" "7"] [Elem "rect" box_attrs []]] ex_box w
  /\ w_figs D w = [mkFig D [(origin D, "rect"%string, box_attrs)] defaultStyle].
Proof.
  split; [exact (proj1 C22_example)|]. split; [exact exactQ_reads|]. split; [exact names_D|]. destruct box_meant as (p & Hp & Hl). eexists. split.
  - exists [], [mkAttr "viewBox" "0 0 200 100"; mkAttr "width" "7"], [Elem "rect" box_attrs []], [], defaultStyle. eexists _, _. split; [reflexivity|]. split; [reflexivity|]. split; [reflexivity|].
    split; [exact ex_root|]. split; [exact ex_view|].
    eapply sems_cons; [|apply sems_nil]. eapply sem_shape; [plain_style| |apply sems_nil].
    exists p. split; [apply (ProofsTree.one_outline (meant demoO exactQ)); exact Hp|reflexivity].
  - destruct p; [discriminate Hl|]. reflexivity.
Qed.

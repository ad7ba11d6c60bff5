(** * PropertiesArc64: which arcs are drawn in binary64 (C07) *)
From Coq Require Import Reals Lra Floats.SpecFloat.
From Flocq Require Import Core.Core IEEE754.BinarySingleNaN.
From Verif Require Import SpecTree SpecLift SpecArc64 ProofsLift2 ProofsLift3 ProofsArc64 ExPath ExTree PropertiesStyle PropertiesTree PropertiesLift.
Local Open Scope R_scope.

(** float64: for every implementation of sin, cos and atan2 with the modest laws of [trig_laws], every path
    data of the commands M L H V Q T C S Z and single arcs A, a, every legal spelling and every parser
    state: every arc draws cubic curves of which the last ends exactly at its end point, which becomes the
    current point.  The only exceptions draw nothing and leave the current point where it was (moved by the
    use offset), and they can only be arcs with a coordinate, rotation or radius above 2 ^ 50, a radius
    below 2 ^ -50 or end points closer than 2 ^ -50 in both directions.  The radii need not be large enough
    to reach the end point. *)
Theorem C07_arc_drawn_float64 : forall (O : Oracles), trig_laws O -> forall lead body (ks : list (step (F64 O))) (c : pcur (F64 O)),
  let off := (pc_curX c, pc_curY c) in
  seps lead = true -> spells_steps (F64 O) body ks -> steps_close (F64 O) false ks = true ->
  exists c' o s, compilePath (lead ++ body) c = (c', Ret tt)
    /\ SpecArc.drawn (F64 O) (fun s a q o e => (ends_at (F64 O) q o /\ e = q)
         \/ (~ modest_arc off s a q /\ o = [] /\ e = (fadd (F64 O) (fst s) (fst off), fadd (F64 O) (snd s) (snd off)))) off (pen0 (F64 O)) ks o s
    /\ pc_path c' = o /\ (pc_placeX c', pc_placeY c') = at_ s /\ pc_log c' = pc_log c.
Proof. exact arcs_drawn64. Qed.
Print Assumptions C07_arc_drawn_float64.

(** The same in whole documents: every path element with arcs is stored with exactly those curves. *)
Theorem C07_document_float64 : forall (O : Oracles), let K := F64 O in trig_laws O -> name_table K ->
  forall (fuel : nat) (mode : errorMode) (lenient : bool) (dep m : nat) (ns : list node) (vb : bounds K) (w : world K),
  (m + dep <= fuel)%nat -> document K (alone K mode m) lenient dep ns vb w -> (lenient = true -> mode <> StrictErrorMode) ->
  exists s log, parse (S fuel) mode (flat_map tokens ns) TermEOF = PSvg s None log
    /\ stores K (fun f p => forall l off attrs lead body ks, fg_shapes K f = (l ++ [(off, "path"%string, attrs)])%list -> attr_once "d" attrs (lead ++ body) ->
         seps lead = true -> spells_steps K body ks -> steps_close K false ks = true ->
         exists e, SpecArc.drawn K (fun s a q o e => (ends_at K q o /\ e = q)
           \/ (~ modest_arc off s a q /\ o = [] /\ e = (fadd K (fst s) (fst off), fadd K (snd s) (snd off)))) off (pen0 K) ks p e) w s.
Proof.
  exact (fun O HT Hn fuel mode lenient dep m ns vb w => document_stores Hn _ fuel mode lenient dep m ns vb w
    (fun f p Ha l off attrs lead body ks Hp Hd => last_path mode m vb _ l off attrs _ p _ (fun Ha => arc_figure64 O HT mode m vb _ _ p lead body ks Ha Hd) Ha Hp Hd)).
Qed.
Print Assumptions C07_document_float64.

(** the laws hold of a crude sin, cos and atan2, and an arc with radii too small to reach its end is modest *)
Definition demoT : Oracles := {|
  o_sin := fun _ => sf_lit 0 1; o_cos := fun _ => sf_lit 1 1; o_tan := o_tan demoO;
  o_atan2 := fun y x => if SFltb y (sf_of_Z 0) then sf_lit (-3) 2 else if SFltb x (sf_of_Z 0) then fpi D else sf_lit 1 2;
  o_isLetterU := o_isLetterU demoO; o_isNumberU := o_isNumberU demoO; o_toLowerU := o_toLowerU demoO; o_colorname := o_colorname demoO;
  o_int := amd64_int; o_i32 := amd64_i32; o_u32 := amd64_u32 |}.
Notation W := sf_lit.
Lemma lit0 : value64 (W 0 1) = 0. Proof. change (W 0 1) with (S754_zero false). reflexivity. Qed.
Lemma lit1 : value64 (W 1 1) = 1. Proof. replace (W 1 1) with (S754_finite false 4503599627370496 (-52)) by (vm_compute; reflexivity). unfold SF2R, F2R. cbn. lra. Qed.
Lemma lit5 : value64 (W 5 1) = 5. Proof. replace (W 5 1) with (S754_finite false 5629499534213120 (-50)) by (vm_compute; reflexivity). unfold SF2R, F2R. cbn. lra. Qed.
Lemma lit10 : value64 (W 10 1) = 10. Proof. replace (W 10 1) with (S754_finite false 5629499534213120 (-49)) by (vm_compute; reflexivity). unfold SF2R, F2R. cbn. lra. Qed.
Lemma lit40 : value64 (W 40 1) = 40. Proof. replace (W 40 1) with (S754_finite false 5629499534213120 (-47)) by (vm_compute; reflexivity). unfold SF2R, F2R. cbn. lra. Qed.
Lemma demoT_laws : trig_laws demoT.
Proof.
  split.
  - intros x _. cbn [o_sin demoT]. rewrite lit0, Rabs_R0. split; [vm_compute; auto|lra].
  - intros x _. cbn [o_cos demoT]. rewrite lit1, Rabs_R1. split; [vm_compute; auto|lra].
  - intros x _. cbn [o_cos o_sin demoT]. rewrite lit0, lit1. lra.
  - intros y x. right. change (fpi (F64 demoT)) with (fpi D). cbn [o_atan2 demoT].
    destruct (SFltb y (sf_of_Z 0)); [vm_compute; auto|]. destruct (SFltb x (sf_of_Z 0)); vm_compute; auto.
  - intros y x _ _. cbn [o_atan2 demoT]. destruct (SFltb y (sf_of_Z 0)); [vm_compute; discriminate|]. destruct (SFltb x (sf_of_Z 0)); vm_compute; discriminate.
Qed.
Definition arc_end (o : pcur (F64 demoT) * outcome unit) : option (nat * pt) :=
  match o with
  | (c, Ret _) => match rev (pc_path c) with OpCubicTo _ _ e :: _ => Some (List.length (pc_path c), e) | _ => None end
  | _ => None
  end.
Example C07_drawn64_example : trig_laws demoT
  /\ modest_arc (W 0 1, W 0 1) (W 10 1, W 0 1) (W 5 1, W 1 1, W 40 1, W 0 1, W 1 1) (W 40 1, W 0 1)
  /\ arc_end (compilePath "M10 0A5 1 40 0 1 40 0" (pc0 StrictErrorMode)) = Some (2%nat, (2560, 0)%Z).
Proof.
  split; [exact demoT_laws|]. split; [|vm_compute; reflexivity].
  assert (H0 : modest (W 0 1)). { split; [vm_compute; auto|]. rewrite lit0, Rabs_R0. lra. }
  assert (H1 : modest (W 1 1)). { split; [vm_compute; auto|]. rewrite lit1, Rabs_R1. lra. }
  assert (H5 : modest (W 5 1)). { split; [vm_compute; auto|]. rewrite lit5, Rabs_pos_eq; lra. }
  assert (H10 : modest (W 10 1)). { split; [vm_compute; auto|]. rewrite lit10, Rabs_pos_eq; lra. }
  assert (H40 : modest (W 40 1)). { split; [vm_compute; auto|]. rewrite lit40, Rabs_pos_eq; lra. }
  assert (P : / 2 ^ 50 <= 1) by lra.
  split; [split; assumption|]. split; [split; assumption|]. split; [split; assumption|]. split.
  { left. cbn [fst]. rewrite lit10, lit40, Rabs_pos_eq; lra. }
  split; [assumption|]. split; (split; [assumption|]).
  - rewrite lit5, Rabs_pos_eq; lra.
  - rewrite lit1, Rabs_R1. exact P.
Qed.
Notation KT := (F64 demoT).
Definition steps64 : list (step KT) :=
  [Plain (MoveTo (E := KT) false (W 10 1, W 0 1) []); ArcTo (E := KT) false (W 5 1, W 1 1, W 40 1, W 0 1, W 1 1) (W 40 1, W 0 1)].
Lemma spelled64 : spells_steps KT "M10 0A5 1 40 0 1 40 0" steps64.
Proof.
  apply (spells_s_cons KT (Plain (MoveTo (E := KT) false (W 10 1, W 0 1) [])) "10 0" "A5 1 40 0 1 40 0").
  { exists [(""%string, num NoSign "10" None); (" "%string, num NoSign "0" None)], ""%string. vm_compute. auto. }
  apply (spells_s_cons KT (ArcTo (E := KT) false (W 5 1, W 1 1, W 40 1, W 0 1, W 1 1) (W 40 1, W 0 1)) "5 1 40 0 1 40 0" "").
  { exists [(""%string, num NoSign "5" None); (" "%string, num NoSign "1" None); (" "%string, num NoSign "40" None); (" "%string, num NoSign "0" None);
      (" "%string, num NoSign "1" None); (" "%string, num NoSign "40" None); (" "%string, num NoSign "0" None)], ""%string. vm_compute. auto. }
  constructor.
Qed.
Lemma arc_alone64 (off : F KT * F KT) : exists p, alone KT StrictErrorMode 0 (zero_box KT) off "path" [mkAttr "d" "M10 0A5 1 40 0 1 40 0"] p /\ p <> [].
Proof.
  destruct (C07_arc_drawn_float64 demoT demoT_laws "" _ _ (c_pc (start_at KT StrictErrorMode (zero_box KT) off)) eq_refl spelled64 eq_refl) as (c' & o & s & H & Hd & Hp & _).
  exists (pc_path c'). split.
  - split; [cbn; auto 10|]. split; [intros [K|K]; discriminate|]. exists pathF. eexists. split; [reflexivity|].
    split; [eapply path_once; [exists [], []; repeat split|exact H]|reflexivity].
  - rewrite Hp. inversion Hd. subst. discriminate.
Qed.
Example C07_document64_example : name_table KT
  /\ (exists w, document KT (alone KT StrictErrorMode 0) false 0 [Elem "svg" [] [Elem "path" [mkAttr "d" "M10 0A5 1 40 0 1 40 0"] []]] (zero_box KT) w
      /\ w_figs KT w = [mkFig KT [(origin KT, "path"%string, [mkAttr "d" "M10 0A5 1 40 0 1 40 0"])] defaultStyle])
  /\ spells_steps KT "M10 0A5 1 40 0 1 40 0" steps64 /\ steps_close KT false steps64 = true.
Proof.
  split; [exact names_D|]. destruct (arc_alone64 (origin KT)) as (p & H1 & H2). split; [eapply one_figure; [skips|exact H1|exact H2]|].
  split; [exact spelled64|reflexivity].
Qed.

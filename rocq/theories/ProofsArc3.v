(** * ProofsArc3: arcs over float64 with a zero radius *)
From Coq Require Import Floats.SpecFloat.
From Verif Require Import SpecArc ProofsArc2 F64 ExPath.
Local Open Scope go_scope.

(** laws of the mathematical functions at zero and at NaN, true of Go's, and int(NaN) as it is on amd64 *)
Definition nan_laws (O : Oracles) : Prop :=
  trig0 O /\ (forall x, o_atan2 O S754_nan x = S754_nan) /\ o_sin O S754_nan = S754_nan
  /\ o_int O S754_nan = (- 2 ^ 63)%Z.

Section Zero.
Context (O : Oracles) (HO : nan_laws O).
Notation nan := (S754_nan : F (F64 O)).
Definition W (n : Z) (d : positive) : F (F64 O) := sf_lit n d.
Lemma sub_nan (x : F (F64 O)) : fsub (F64 O) x nan = nan. Proof. destruct x; reflexivity. Qed.
Lemma nan_sub (x : F (F64 O)) : fsub (F64 O) nan x = nan. Proof. destruct x; reflexivity. Qed.
Lemma nan_add (x : F (F64 O)) : fadd (F64 O) nan x = nan. Proof. destruct x; reflexivity. Qed.
Lemma nan_div (x : F (F64 O)) : fdiv (F64 O) nan x = nan. Proof. destruct x; reflexivity. Qed.
Lemma adjust_nan a b c : adjustEta (E := F64 O) nan a b c = nan.
Proof.
  assert (H1 : forall x, fltb (F64 O) nan x = false) by (intros []; reflexivity).
  assert (H2 : forall x, fleb (F64 O) x nan = false) by (intros [| [] | |]; reflexivity).
  unfold adjustEta. cbv zeta. rewrite H1, nan_sub. destruct (xorb a b); rewrite H1, H2; reflexivity.
Qed.
Lemma addArc_nan ra rb rot fa fs (q : F (F64 O) * F (F64 O)) px py p :
  addArc (E := F64 O) [ra; rb; rot; fa; fs; fst q; snd q] nan nan px py p = Ret (p, (px, py)).
Proof.
  destruct HO as (_ & H3 & H4 & H5). assert (Hi : f_to_int (F64 O) nan = (- 2 ^ 63)%Z) by (change (wrap64 (o_int O S754_nan) = (- 2 ^ 63)%Z); rewrite H5; reflexivity).
  unfold addArc. cbn [idx nth_error obind]. cbv zeta. rewrite !sub_nan.
  change (fatan2 (F64 O)) with (o_atan2 O). change (fsin (F64 O)) with (o_sin O). change (fcos (F64 O)) with (o_cos O). rewrite !H3.
  rewrite !nan_sub, !H4, !nan_div, !H3, !nan_sub, !adjust_nan.
  destruct (ellipsePrime _ _ _ _ _) as [u v]. change (fabs (F64 O) nan) with nan. rewrite nan_div, Hi. reflexivity.
Qed.
Lemma center_zero : findEllipseCenter (E := F64 O) (W 5 1) (W 0 1) (S754_zero false) (W 10 1) (W 0 1) (W 20 1) (W 0 1) true true
  = ((nan, nan), (W 5 1, W 0 1)).
Proof.
  destruct HO as [[H1 H2] _]. unfold findEllipseCenter. change (fsin (F64 O)) with (o_sin O). change (fcos (F64 O)) with (o_cos O). rewrite H1, H2. vm_compute. reflexivity.
Qed.
Lemma call_zero p : arc_call (E := F64 O) (W 0 1, W 0 1) (W 10 1, W 0 1) (W 5 1, W 0 1, W 0 1, W 0 1, W 0 1) (W 20 1, W 0 1) p
  = Ret (p, (fadd (F64 O) (W 10 1) (W 0 1), fadd (F64 O) (W 0 1) (W 0 1))).
Proof.
  unfold arc_call.
  match goal with |- context [findEllipseCenter ?a ?b ?r ?x ?y ?u ?v ?g ?h] =>
    replace (findEllipseCenter a b r x y u v g h) with (findEllipseCenter (E := F64 O) (W 5 1) (W 0 1) (S754_zero false) (W 10 1) (W 0 1) (W 20 1) (W 0 1) true true)
      by (f_equal; vm_compute; reflexivity) end.
  rewrite center_zero, !nan_add. apply addArc_nan.
Qed.
(** "M10 0A5 0 0 0 0 20 0" *)
Definition zero_steps : list (step (F64 O)) :=
  [Plain (MoveTo false (W 10 1, W 0 1) []); ArcTo false (W 5 1, W 0 1, W 0 1, W 0 1, W 0 1) (W 20 1, W 0 1)].
Lemma zero_spelled : spells_steps (F64 O) "M10 0A5 0 0 0 0 20 0" zero_steps.
Proof.
  apply (spells_s_cons (F64 O) (Plain (MoveTo false (W 10 1, W 0 1) [])) "10 0" "A5 0 0 0 0 20 0").
  { exists [(""%string, num NoSign "10" None); (" "%string, num NoSign "0" None)], ""%string. vm_compute. auto. }
  apply (spells_s_cons (F64 O) (ArcTo false (W 5 1, W 0 1, W 0 1, W 0 1, W 0 1) (W 20 1, W 0 1)) "5 0 0 0 0 20 0" "").
  { exists [(""%string, num NoSign "5" None); (" "%string, num NoSign "0" None); (" "%string, num NoSign "0" None); (" "%string, num NoSign "0" None);
      (" "%string, num NoSign "0" None); (" "%string, num NoSign "20" None); (" "%string, num NoSign "0" None)], ""%string. vm_compute. auto. }
  constructor.
Qed.
Theorem zero_radius m : exists c', compilePath (E := F64 O) "M10 0A5 0 0 0 0 20 0" (pc0 m) = (c', Ret tt)
  /\ pc_path c' = [OpMoveTo (640, 0)%Z] /\ (pc_placeX c', pc_placeY c') = (W 10 1, W 0 1).
Proof.
  destruct (compilePath_steps (E := F64 O) (F64_add_comm O)
     (fun s a q o e => exists p, arc_call (W 0 1, W 0 1) s a q p = Ret (p ++ o, e)) "" "M10 0A5 0 0 0 0 20 0" zero_steps (pc0 m))
    as (c' & o & s & H1 & H2 & H3 & H4 & _).
  { intros s a q p. destruct (arc_call_gen (E := F64 O) (W 0 1, W 0 1) s a q p) as (o & e & H & _). exists o, e. split; [exact H|]. exists p. exact H. }
  { reflexivity. } { exact zero_spelled. } { reflexivity. }
  exists c'. split; [exact H1|]. rewrite H3.
  inversion H2 as [|? ? ? o2 ? Hd|]; subst. inversion Hd as [| |? ? ? ? ? o1 e o3 ? Ha Hd2]; subst. inversion Hd2; subst.
  destruct Ha as [p Ha]. 
  match type of Ha with arc_call _ ?s ?a ?q p = _ => change (arc_call (W 0 1, W 0 1) (W 10 1, W 0 1) a q p = Ret (p ++ o1, e)) in Ha end.
  cbn [absolute] in Ha. rewrite call_zero in Ha. injection Ha as E1 <-.
  assert (o1 = []) as ->. { apply (app_inv_head p). rewrite app_nil_r. symmetry. exact E1. }
  split; [vm_compute; reflexivity|]. etransitivity; [exact H4|]. cbn [at_]. vm_compute. reflexivity.
Qed.
End Zero.

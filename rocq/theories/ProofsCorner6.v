(** * ProofsCorner6: rounded rectangles in documents *)
From Coq Require Import ZArith Lia Reals Lra Psatz Floats.SpecFloat.
From Flocq Require Import Core.Core Relative IEEE754.BinarySingleNaN.
From Verif Require Import F64 RealEnv SpecArc SpecTrig SpecCurve SpecPlane SpecCorner ProofsArc64 ProofsScale ProofsAngle ProofsSize3 ProofsDec ProofsRect ProofsPlane ProofsCircle ProofsCurve ProofsCorner ProofsCorner2 ProofsCorner3 ProofsCorner4 ProofsCorner5 ProofsClose ProofsMeasure ProofsShape ProofsUnit ProofsFlocq.
Local Open Scope R_scope.
Local Existing Instance ProofsFlocq.Hprec.
Local Existing Instance ProofsFlocq.Hmax.
Local Notation pow := (bpow radix2).

(** ** Lengths, more precisely *)
Definition uu : R := / 9007199254740992.
Definition nn : R := / 1152921504606846976.
Lemma rnd_rel z : Rabs (rnd z - z) <= uu * Rabs z + nn.
Proof.
  destruct (error_N_FLT radix2 (-1074) 53 ltac:(lia) (fun x => negb (Z.even x)) z) as (eps & eta & H1 & H2 & _ & H4). change (Rabs eps <= / 2 * pow (-53 + 1)) in H1. change (Rabs eta <= / 2 * pow (-1074)) in H2.
  change (round radix2 (FLT_exp (-1074) 53) (Znearest (fun x => negb (Z.even x))) z) with (rnd z) in H4. rewrite H4. replace (z * (1 + eps) + eta - z) with (z * eps + eta) by ring.
  pose proof (Rabs_triang (z * eps) eta) as T. rewrite Rabs_mult in T.
  assert (E1 : / 2 * pow (-53 + 1) = uu) by (unfold uu; cbn; lra). rewrite E1 in H1.
  assert (E2 : / 2 * pow (-1074) <= nn). { apply Rle_trans with (pow (-60)); [|unfold nn; cbn; lra]. apply Rle_trans with (pow (-1074)); [pose proof (bpow_gt_0 radix2 (-1074)); lra|apply bpow_le; lia]. }
  assert (Rabs z * Rabs eps <= Rabs z * uu) by (apply Rmult_le_compat_l; [apply Rabs_pos|exact H1]). lra.
Qed.
(** three roundings: a number, a unit, their product *)
Lemma unit_sharp q c q1 c1 t : Rabs (q1 - q) <= uu * Rabs q + nn -> Rabs (c1 - c) <= uu * c + nn -> / 2 <= c <= 128 -> Rabs (q * c) <= 65536 -> Rabs (t - q1 * c1) <= uu * Rabs (q1 * c1) + nn ->
  Rabs (t - q * c) <= / 2 ^ 34.
Proof.
  intros Hq Hc Bc Bx Ht. assert (Aq : Rabs q * c <= 65536) by (rewrite Rabs_mult, (Rabs_pos_eq c) in Bx by lra; exact Bx). pose proof (Rabs_pos q) as Pq. assert (Bq : Rabs q <= 131072) by nra.
  assert (Bq1 : Rabs q1 <= 131073). { pose proof (Rabs_triang (q1 - q) q) as T. replace (q1 - q + q) with q1 in T by ring. unfold uu, nn in *. lra. }
  assert (D1 : Rabs ((q1 - q) * c) <= uu * 65536 + 128 * nn).
  { rewrite Rabs_mult, (Rabs_pos_eq c) by lra. apply Rle_trans with ((uu * Rabs q + nn) * c); [apply Rmult_le_compat_r; lra|]. unfold uu, nn in *. nra. }
  assert (D2 : Rabs (q * (c1 - c)) <= uu * 65536 + 131072 * nn).
  { rewrite Rabs_mult. apply Rle_trans with (Rabs q * (uu * c + nn)); [apply Rmult_le_compat_l; lra|]. unfold uu, nn in *. nra. }
  assert (D3 : Rabs ((q1 - q) * (c1 - c)) <= / 2 ^ 50).
  { rewrite Rabs_mult. apply Rle_trans with ((uu * 131072 + nn) * (uu * 128 + nn)); [|unfold uu, nn; lra]. apply Rmult_le_compat; try apply Rabs_pos; unfold uu, nn in *; lra. }
  assert (D : Rabs (q1 * c1 - q * c) <= 2.1 * uu * 65536 + 2 ^ 18 * nn).
  { replace (q1 * c1 - q * c) with ((q1 - q) * c + q * (c1 - c) + (q1 - q) * (c1 - c)) by ring. eapply Rle_trans; [apply Rabs_triang|]. pose proof (Rabs_triang ((q1 - q) * c) (q * (c1 - c))). unfold uu, nn in *. lra. }
  pose proof (Rabs_triang (q1 * c1 - q * c) (q * c)) as T1. replace (q1 * c1 - q * c + q * c) with (q1 * c1) in T1 by ring. pose proof (Rabs_triang (t - q1 * c1) (q1 * c1 - q * c)) as T2. replace (t - q1 * c1 + (q1 * c1 - q * c)) with (t - q * c) in T2 by ring.
  unfold uu, nn in *. lra.
Qed.
(** a percentage *)
Lemma percent_sharp q g q1 q2 t : Rabs (q1 - q) <= uu * Rabs q + nn -> Rabs (q2 - q1 / 100) <= uu * Rabs (q1 / 100) + nn -> Rabs q <= 131072 -> Rabs g <= 131072 -> Rabs (q / 100 * g) <= 65536 ->
  Rabs (t - q2 * g) <= uu * Rabs (q2 * g) + nn -> Rabs (t - q / 100 * g) <= / 2 ^ 34.
Proof.
  intros H1 H2 Bq Bg Bx Ht. set (k := q / 100) in *. assert (Hk : q = 100 * k) by (unfold k; field). assert (H1' : Rabs (q1 / 100 - k) <= uu * Rabs k + nn).
  { replace (q1 / 100 - k) with ((q1 - q) * / 100) by (unfold k; field). rewrite Rabs_mult, (Rabs_pos_eq (/ 100)) by lra. rewrite Hk, Rabs_mult, (Rabs_pos_eq 100) in H1 by lra. rewrite Hk. unfold nn in *. lra. }
  assert (Bk : Rabs k <= 1311) by (rewrite Hk, Rabs_mult, (Rabs_pos_eq 100) in Bq by lra; lra). clearbody k. clear Hk H1 q Bq. set (k1 := q1 / 100) in *. clearbody k1. clear q1.
  assert (H3 : Rabs (q2 - k) <= 2.1 * uu * Rabs k + 3 * nn).
  { pose proof (Rabs_triang (q2 - k1) (k1 - k)) as T. replace (q2 - k1 + (k1 - k)) with (q2 - k) in T by ring. pose proof (Rabs_triang (k1 - k) k) as T1. replace (k1 - k + k) with k1 in T1 by ring. pose proof (Rabs_pos k). unfold uu, nn in *. lra. }
  rewrite Rabs_mult in Bx. pose proof (Rabs_pos k). pose proof (Rabs_pos g).
  assert (D : Rabs ((q2 - k) * g) <= 2.1 * uu * 65536 + 3 * nn * 131072).
  { rewrite Rabs_mult. apply Rle_trans with ((2.1 * uu * Rabs k + 3 * nn) * Rabs g); [apply Rmult_le_compat_r; lra|]. unfold uu, nn in *. nra. }
  replace ((q2 - k) * g) with (q2 * g - k * g) in D by ring. rewrite <- Rabs_mult in Bx.
  pose proof (Rabs_triang (q2 * g - k * g) (k * g)) as T1. replace (q2 * g - k * g + k * g) with (q2 * g) in T1 by ring. pose proof (Rabs_triang (t - q2 * g) (q2 * g - k * g)) as T2. replace (t - q2 * g + (q2 * g - k * g)) with (t - k * g) in T2 by ring.
  unfold uu, nn in *. lra.
Qed.
Section Sharp.
Context (O : Oracles) (Q : ROracles).
Notation E := (F64 O).
Notation X := (RealEnv Q).
Definition sharp (x' : F E) (x : F X) : Prop := ap 17 (2 ^ 66) x' x /\ (x = 0 -> val x' = 0).
Lemma sharp_of (x' : F E) (x : F X) e : ap 17 e x' x -> Rabs (val x' - x) <= / 2 ^ 34 -> (x = 0 -> val x' = 0) -> sharp x' x.
Proof using.
  intros (B & _ & K) H H0. split; [|exact H0]. split; [exact B|]. split; [|exact K]. rewrite err_pow by lia. apply Rle_trans with (1 := H). cbn. lra.
Qed.
Lemma unit_val u : let c := flit X (fst (px_per u)) (snd (px_per u)) in let c' := flit E (fst (px_per u)) (snd (px_per u)) in
  / 2 <= c <= 128 /\ Rabs (val c' - c) <= uu * c + nn.
Proof using.
  assert (K : forall n d, (0 < n)%Z -> / 2 <= IZR n / IZR (Zpos d) <= 128 -> / 2 <= IZR n / IZR (Zpos d) <= 128 /\ Rabs (val (sf_lit n d) - IZR n / IZR (Zpos d)) <= uu * (IZR n / IZR (Zpos d)) + nn).
  { intros n d Hn Hb. split; [exact Hb|]. unfold sf_lit. replace (n <? 0)%Z with false by (symmetry; apply Z.ltb_ge; lia).
    assert (Hr : ratR false (Z.abs_N n) d = IZR n / IZR (Zpos d)) by (unfold ratR; rewrite N2Z.inj_abs_N, Z.abs_eq by lia; ring).
    destruct (rat_round false (Z.abs_N n) d) as [K1 K2]. { rewrite Hr. apply (no_over 7); [lia|]. rewrite Rabs_pos_eq by lra. cbn. lra. } rewrite Hr in K2. rewrite K2.
    pose proof (rnd_rel (IZR n / IZR (Zpos d))) as H. rewrite (Rabs_pos_eq (IZR n / IZR (Zpos d))) in H by lra. exact H. }
  cbn [flit F64 RealEnv]. destruct u; cbn [px_per fst snd]; apply K; try reflexivity; cbn; lra.
Qed.
Lemma length_sharp (vb : bounds E) e s x : upto O 17 (bW vb) -> upto O 17 (bH vb) -> e <> OfDiagonal -> exact_length Q (ex_bounds O Q vb) e s x ->
  exists x', is_length E vb e s x' /\ sharp x' x.
Proof using.
  intros HW HH He (l & n & m & u & r & Es & Hl & Hm & Hr & Hn & Hsh & Hp & Hb & Ex & Hx).
  destruct (numeral_read O n Hn Hsh) as (v & Ev & [V Fi] & Hv). { apply Rle_trans with (1 := Hb). replace (2 ^ 17) with (pow 17) by (cbn; lra). apply bpow_le. lia. }
  exists (length_value E vb e u v). split. { exists l, (match n_sign n with Minus => "-" | _ => "" end ++ unsigned_text n)%string, m, u, r, v. repeat split; try assumption. apply numeral_number, Hn. }
  replace (2 ^ 17) with (pow 17) in Hb by (cbn; lra). replace (2 ^ 16) with (pow 16) in Hx by (cbn; lra). set (q := num_exact n) in *. clearbody q. clear Es Ev Hn Hp.
  assert (Av : ap 17 (2 ^ 64) v q). { split; [split; [exact V|split; [exact Fi|rewrite Hv; apply rnd_up; [lia|exact Hb]]]|]. split; [|exact Hb]. rewrite Hv. apply (rnd_err 17); [lia|exact Hb]. }
  destruct (unit_ap O Q u) as (Au & Pu & Pu'). destruct (unit_val u) as [Bu Cu]. set (c := flit X _ _) in *. set (c' := flit E _ _) in *.
  assert (Hxx : x = length_value X (ex_bounds O Q vb) e u q) by exact Ex. clear Ex.
  assert (B16 : Rabs x <= 65536) by (apply Rle_trans with (1 := Hx); cbn; lra). assert (B17 : Rabs q <= 131072) by (apply Rle_trans with (1 := Hb); cbn; lra).
  assert (S : unit -> u <> UPercent -> length_value E vb e u v = SFmul 53 1024 v c' /\ x = q * c) by (intros _ Hu; subst x; unfold length_value; fold c c'; destruct u; try contradiction; split; reflexivity).
  destruct (ProofsUnit.unite_of u) eqn:Eu; try (destruct (S tt) as [-> Ex]; [intros ->; discriminate|]; clear S Hxx;
    pose proof (ap_mul 17 7 _ _ _ _ _ _ ltac:(lia) ltac:(lia) ltac:(lia) Av Au) as Ap; destruct (bd_mul 17 7 v c' ltac:(lia) (proj1 Av) (proj1 Au)) as [_ Kv];
    apply (ap_close _ _ 16) in Ap; [|lia|lia|rewrite <- Ex; exact Hx]; rewrite <- Ex in Ap; apply (sharp_of _ _ _ Ap); clear Ap; rewrite Kv, Hv, Ex;
    [apply (unit_sharp q c (rnd q) (val c')); [apply rnd_rel|exact Cu|exact Bu|rewrite <- Ex; exact B16|apply rnd_rel]
    |intros H0; assert (q = 0) by (destruct (Rmult_integral _ _ H0); lra); subst q; rewrite rnd_0', Rmult_0_l; apply rnd_0']).
  assert (u = UPercent) by (destruct u; try discriminate; reflexivity). subst u. clear S Eu.
  destruct (extent_near O Q vb e HW HH) as (Ag & _ & _ & Zs). assert (Eg : full X (ex_bounds O Q vb) e = val (full E vb e)) by (destruct e; [reflexivity|reflexivity|contradiction]).
  assert (Bg : Rabs (val (full E vb e)) <= 131072). { assert (K : forall y, upto O 17 y -> Rabs (val y) <= 131072) by (intros y [_ Hy]; lra). destruct e; [apply K, HW|apply K, HH|contradiction]. }
  set (g := full E vb e) in *. set (g' := full X (ex_bounds O Q vb) e) in *.
  assert (Ex : x = q * c / 100 * g') by (rewrite Hxx; unfold length_value; fold c; fold g'; rewrite fnum_real; reflexivity). clear Hxx.
  assert (El : length_value E vb e UPercent v = SFmul 53 1024 (SFdiv 53 1024 (SFmul 53 1024 v c') (fnum E 100)) g) by reflexivity. rewrite El. clear El.
  assert (Hc : c = 1) by (unfold c; cbn; field). assert (Hc' : c' = sf_lit 1 1) by reflexivity. rewrite Hc, Rmult_1_r in Ex.
  assert (Em : SFmul 53 1024 v c' = v) by (rewrite Hc'; apply mul_one; assumption). rewrite Em.
  destruct (num_val O 100 ltac:(lia)) as [N1 N2].
  assert (Ad : ap 11 (2 ^ 57 + 2 ^ 56 + 2 ^ (11 + 47)) (SFdiv 53 1024 v (fnum E 100)) (q / 100)).
  { apply (ap_over 17 11 (2 ^ 64) (2 ^ 57 + 2 ^ 56) v q (fnum E 100) 100); [lia|exact N1|exact N2|lra|cbn; lra| |exact Av]. rewrite <- mult_IZR. apply IZR_le. lia. }
  pose proof (ap_mul 11 18 _ _ _ _ _ _ ltac:(lia) ltac:(lia) ltac:(lia) Ad Ag) as Ap.
  apply (ap_close _ _ 16) in Ap; [|lia|lia|rewrite <- Ex; exact Hx]. rewrite <- Ex in Ap. apply (sharp_of _ _ _ Ap); clear Ap.
  all: destruct (bd_mul 11 18 _ g ltac:(lia) (proj1 Ad) (proj1 Ag)) as [_ Kv]; rewrite Kv, Ex.
  all: assert (Kd : val (SFdiv 53 1024 v (fnum E 100)) = rnd (rnd q / 100)) by
    (destruct (div_round v (fnum E 100) V (proj1 N1) Fi (proj2 N1)) as [_ K2]; [rewrite N2; lra| |rewrite K2, N2, Hv; reflexivity];
     rewrite N2; apply (no_over 17); [lia|]; unfold Rdiv; rewrite Rabs_mult, (Rabs_pos_eq (/ 100)) by lra; destruct Av as ((_ & _ & B) & _); pose proof (Rabs_pos (val v)); lra).
  all: rewrite Kd.
  - rewrite Eg. apply (percent_sharp q (val g) (rnd q) (rnd (rnd q / 100))); [apply rnd_rel|apply rnd_rel|exact B17|exact Bg|rewrite <- Eg, <- Ex; exact B16|apply rnd_rel].
  - clear - Zs. set (y := val g) in *. clearbody y g'. intros H. apply Rmult_integral in H as [H|H].
    + assert (q = 0) by lra. subst q. rewrite rnd_0'. replace (0 / 100) with 0 by field. rewrite rnd_0', Rmult_0_l. apply rnd_0'.
    + rewrite (Zs H), Rmult_0_r. apply rnd_0'.
Qed.
Lemma attr_sharp (vb : bounds E) e n attrs x : upto O 17 (bW vb) -> upto O 17 (bH vb) -> e <> OfDiagonal -> exact_attr Q (ex_bounds O Q vb) e n attrs x ->
  exists x', length_attr vb e n attrs x' /\ sharp x' x.
Proof using.
  intros HW HH He. unfold exact_attr, length_attr.
  assert (K : forall l d d' y, sharp d' d -> value_attr (exact_length Q (ex_bounds O Q vb) e) n d l y -> exists x', value_attr (is_length E vb e) n d' l x' /\ sharp x' y).
  { induction l as [|a l IH]; intros d d' y Hd H; cbn [value_attr] in *; [subst y; exists d'; auto|]. destruct (String.eqb (a_name a) n); [|eapply IH; eassumption].
    destruct H as (y0 & H1 & H2). destruct (length_sharp vb e _ _ HW HH He H1) as (y' & L1 & L2). destruct (IH _ _ _ L2 H2) as (x' & M1 & M2). exists x'. split; [exists y'; auto|exact M2]. }
  apply K. split; [|intros _; reflexivity]. apply ap_le with (b := 17%Z) (e := 0%Z); [lia|lia|]. apply ap_zero. lia.
Qed.
End Sharp.

(** * ProofsMeasure: shape elements in binary64 and in exact arithmetic *)
From Coq Require Import ZArith Lia Reals Lra Psatz Floats.SpecFloat.
From Flocq Require Import Core.Core IEEE754.BinarySingleNaN.
From Verif Require Import F64 RealEnv ProofsFlocq ProofsSize3 ProofsArc64 ProofsDec ProofsScale ProofsClose ProofsRead ProofsReadPath ProofsUnit SpecClose SpecMeasure SpecTrig ProofsShape ProofsTree2 SpecLift ProofsLift2 ProofsF64 ProofsCircle.
Local Open Scope R_scope.
Local Existing Instance ProofsFlocq.Hprec.
Local Existing Instance ProofsFlocq.Hmax.
Local Notation pow := (bpow radix2).

(** ** Errors *)
Lemma rnd_neg r : r <= 0 -> rnd r <= 0.
Proof. intros H. pose proof (rnd_pos (- r) ltac:(lra)) as K. rewrite rnd_opp in K. lra. Qed.
Lemma rnd_0' : rnd 0 = 0. Proof. apply round_0. typeclasses eauto. Qed.

(** ** Numerals as lengths *)
Lemma ends_app p s t : t <> EmptyString -> ends_with p (s ++ t) = ends_with p t.
Proof. intros H. induction s as [|c s IH]; [reflexivity|]. cbn [String.append ends_with]. rewrite IH. destruct (s ++ t)%string eqn:Es; [|reflexivity]. destruct s; [cbn in Es; contradiction|discriminate]. Qed.
Lemma ends_digits s : digits s = true -> nonempty s = true -> ends_with (fun c => is_digit c || Ascii.eqb c ".")%bool s = true.
Proof.
  induction s as [|c s IH]; [discriminate|]. unfold digits. cbn [all_chars]. intros H _. apply andb_prop in H as [H1 H2]. cbn [ends_with]. destruct s as [|d s]; [rewrite H1; reflexivity|]. apply IH; [exact H2|reflexivity].
Qed.
Notation numc := (fun c => is_digit c || existsb (Ascii.eqb c) ["+"; "-"; "."; "e"; "E"]%char)%bool.
Lemma digits_numc s : digits s = true -> all_chars numc s = true.
Proof. apply all_chars_imp. intros c ->. reflexivity. Qed.
Lemma numeral_number n : legal_numeral n = true -> number_text (match n_sign n with Minus => "-" | _ => "" end ++ unsigned_text n) = true.
Proof.
  destruct n as [sg i f x]. unfold legal_numeral, unsigned_text, number_text. cbn [n_sign n_int n_frac n_exp]. intros H. apply andb_prop in H as [H H3]. apply andb_prop in H as [H1 H2].
  apply andb_true_intro. split.
  - rewrite !all_chars_app, (digits_numc _ H1). assert (Hs : all_chars numc (match sg with Minus => "-" | _ => "" end) = true) by (destruct sg; reflexivity). rewrite Hs. cbn [andb].
    apply andb_true_intro. split.
    + destruct f as [f|]; [|reflexivity]. apply andb_prop in H2 as [H2 _]. cbn [String.append all_chars]. rewrite (digits_numc _ H2). reflexivity.
    + destruct x as [[[] ds]|]; [| |reflexivity]; apply andb_prop in H3 as [H3 _]; cbn [String.append all_chars]; rewrite (digits_numc _ H3); reflexivity.
  - assert (K : forall s, s <> EmptyString -> ends_with (fun c => is_digit c || Ascii.eqb c ".")%bool s = true -> forall t, ends_with (fun c => is_digit c || Ascii.eqb c ".")%bool (t ++ s) = true) by (intros s Hs He t; rewrite ends_app; assumption).
    assert (U : (i ++ match f with Some f => "." ++ f | None => "" end ++ match x with Some (neg, ds) => "e" ++ (if (neg : bool) then "-" else "") ++ ds | None => "" end)%string <> EmptyString
      /\ ends_with (fun c => is_digit c || Ascii.eqb c ".")%bool (i ++ match f with Some f => "." ++ f | None => "" end ++ match x with Some (neg, ds) => "e" ++ (if (neg : bool) then "-" else "") ++ ds | None => "" end)%string = true).
    { assert (Hne : forall a b : string, b <> EmptyString -> (a ++ b)%string <> EmptyString) by (intros [|? ?] b Hb; [exact Hb|discriminate]).
      destruct x as [[neg ds]|].
      - apply andb_prop in H3 as [H3 H4]. assert (Hd : ds <> EmptyString) by (intros ->; discriminate). split.
        + apply Hne, Hne. discriminate.
        + apply K; [apply Hne; discriminate|]. apply K; [discriminate|]. apply (K ((if neg then "-" else "") ++ ds)%string); [apply Hne, Hd|]. apply K; [exact Hd|apply ends_digits; assumption].
      - destruct f as [f|].
        + apply andb_prop in H2 as [H2 H4]. split; [apply Hne; discriminate|]. apply K; [discriminate|]. rewrite sapp_nil_r. destruct f as [|c f].
          * reflexivity.
          * apply (K (String c f)); [discriminate|apply ends_digits; [exact H2|reflexivity]].
        + rewrite sapp_nil_r. assert (Hi : i <> EmptyString) by (intros ->; discriminate). split; [exact Hi|apply ends_digits; assumption]. }
    destruct U as [U1 U2]. apply K; assumption.
Qed.

Lemma circleF_runs {E : Env} attrs cx cy rx ry (c : cursor E) pc' : foldM circleAttr (f0 E, f0 E, f0 E, f0 E) attrs c = (c, Ret (cx, cy, rx, ry)) ->
  feqb E rx (f0 E) = false -> feqb E ry (f0 E) = false -> ellipseAt (fadd E cx (fst (offset c))) (fadd E cy (snd (offset c))) rx ry (c_pc c) = (pc', Ret tt) ->
  circleF attrs c = (c_set_pc pc' c, Ret tt).
Proof.
  intros Hf N1 N2 H1. unfold f0 in *. unfold circleF. rewrite (bind_step _ _ _ _ _ Hf). cbv beta iota. rewrite N1, N2. cbn [orb].
  unfold bind, curXY, gets. cbn [fst snd offset] in H1. unfold liftP. rewrite H1. reflexivity.
Qed.

Section Measure.
Context (O : Oracles) (Q : ROracles).
Notation E := (F64 O).
Notation X := (RealEnv Q).
Lemma numeral_read n : legal_numeral n = true -> short_exp n = true -> Rabs (num_exact n) <= pow 900 ->
  exists v, parseFloat E (match n_sign n with Minus => "-" | _ => "" end ++ unsigned_text n)%string = Some v /\ finite64 v /\ val v = rnd (num_exact n).
Proof using.
  intros H1 Hs H2. destruct (read_nearest O n H1 Hs H2) as (x & K1 & K2 & K3 & K4). unfold num_value in K1. destruct (parseFloat E _) as [v|] eqn:Ev; [|discriminate]. injection K1 as K1.
  exists v. split; [reflexivity|]. cbn [parseFloat F64] in Ev. pose proof (parse_valid _ _ Ev) as V. cbn [fmul flit F64] in K1.
  assert (Fi : finite v). { destruct v as [s|[|]| |s m e]; try exact I; subst x; vm_compute in K3; exact K3. }
  split; [split; assumption|]. rewrite <- K4, <- K1. f_equal. symmetry. apply (mul_one v V Fi).
Qed.
(** [x'] stands for the exact length [x] *)
Definition stands (x' : F E) (x : F X) : Prop := ap 17 (2 ^ 80) x' x /\ (x = 0 -> val x' = 0) /\ (x <= 0 -> val x' <= 0).
Lemma unit_ap u : ap 7 (2 ^ 54) (flit E (fst (px_per u)) (snd (px_per u))) (flit X (fst (px_per u)) (snd (px_per u))) /\ 0 < flit X (fst (px_per u)) (snd (px_per u)) /\ 0 < val (flit E (fst (px_per u)) (snd (px_per u))).
Proof using.
  assert (K : forall n d, (0 < n)%Z -> Rabs (IZR n / IZR (Zpos d)) <= pow 7 -> pow (-1) <= IZR n / IZR (Zpos d) -> ap 7 (2 ^ 54) (sf_lit n d) (IZR n / IZR (Zpos d)) /\ 0 < IZR n / IZR (Zpos d) /\ 0 < val (sf_lit n d)).
  { intros n d Hn Hb Hlo. unfold sf_lit. replace (n <? 0)%Z with false by (symmetry; apply Z.ltb_ge; lia).
    assert (Hr : ratR false (Z.abs_N n) d = IZR n / IZR (Zpos d)) by (unfold ratR; rewrite N2Z.inj_abs_N, Z.abs_eq by lia; ring).
    destruct (rat_round false (Z.abs_N n) d) as [K1 K2]. { rewrite Hr. apply (no_over 7); [lia|exact Hb]. } rewrite Hr in K2.
    assert (Hp : pow (-1) <= rnd (IZR n / IZR (Zpos d))). { rewrite <- (rnd_id (pow (-1))); [apply rnd_mono, Hlo|apply pow_format; lia]. } pose proof (bpow_gt_0 radix2 (-1)) as P0.
    split; [|split; [lra|rewrite K2; lra]]. split; [split; [apply rat_valid|split; [exact K1|rewrite K2; apply rnd_up; [lia|exact Hb]]]|]. split; [|exact Hb]. rewrite K2. apply (rnd_err 7); [lia|exact Hb]. }
  cbn [flit F64 RealEnv]. destruct u; cbn [px_per fst snd]; apply K; try reflexivity; try (rewrite Rabs_pos_eq by lra); cbn; lra.
Qed.
Lemma extent_near (vb : bounds E) e : upto O 17 (bW vb) -> upto O 17 (bH vb) ->
  let g := full E vb e in let g' := full X (ex_bounds O Q vb) e in
  ap 18 (6 * 2 ^ 66) g g' /\ (0 <= g' -> 0 <= val g) /\ (g' <= 0 -> val g <= 0) /\ (g' = 0 -> val g = 0).
Proof using.
  intros HW HH g g'. assert (Pw : forall y, upto O 17 y -> finite64 y /\ Rabs (val y) <= pow 17).
  { intros y Hy. split; [apply Hy|]. apply upto_ap in Hy. exact (proj2 (proj2 (proj1 Hy))). }
  destruct (Pw _ HW) as [FW BW], (Pw _ HH) as [FH BH]. destruct e.
  - assert (Eg : g' = val g) by reflexivity. rewrite Eg. split; [|repeat split; tauto]. apply (ap_le 17 18 0); [lia|lia|]. apply ap_exact; assumption.
  - assert (Eg : g' = val g) by reflexivity. rewrite Eg. split; [|repeat split; tauto]. apply (ap_le 17 18 0); [lia|lia|]. apply ap_exact; assumption.
  - destruct (diag_near _ _ FW FH BW BH) as (H1 & H2 & H3 & H4).
    assert (Eg : g' = sqrt (val (bW vb) * val (bW vb) + val (bH vb) * val (bH vb)) / sqrt 2) by (unfold g', full; rewrite fnum_real; reflexivity). rewrite Eg.
    split; [exact H1|]. split; [intros _; exact H2|]. split; [|exact H4]. intros H5. apply Req_le. apply H4. lra.
Qed.
Lemma length_near (vb : bounds E) e s x : upto O 17 (bW vb) -> upto O 17 (bH vb) -> exact_length Q (ex_bounds O Q vb) e s x ->
  exists x', is_length E vb e s x' /\ stands x' x.
Proof using.
  intros HW HH (l & n & m & u & r & Es & Hl & Hm & Hr & Hn & Hsh & Hp & Hb & Ex & Hx).
  destruct (numeral_read n Hn Hsh) as (v & Ev & [V Fi] & Hv). { apply Rle_trans with (1 := Hb). replace (2 ^ 17) with (pow 17) by (cbn; lra). apply bpow_le. lia. }
  exists (length_value E vb e u v). split. { exists l, (match n_sign n with Minus => "-" | _ => "" end ++ unsigned_text n)%string, m, u, r, v. repeat split; try assumption. apply numeral_number, Hn. }
  replace (2 ^ 17) with (pow 17) in Hb by (cbn; lra). replace (2 ^ 16) with (pow 16) in Hx by (cbn; lra). set (q := num_exact n) in *. clearbody q. clear Es Ev Hn Hp.
  assert (Av : ap 17 (2 ^ 64) v q). { split; [split; [exact V|split; [exact Fi|rewrite Hv; apply rnd_up; [lia|exact Hb]]]|]. split; [|exact Hb]. rewrite Hv. apply (rnd_err 17); [lia|exact Hb]. }
  destruct (unit_ap u) as (Au & Pu & Pu'). set (c := flit X _ _) in *. set (c' := flit E _ _) in *.
  assert (Hxx : x = length_value X (ex_bounds O Q vb) e u q) by exact Ex. clear Ex.
  assert (S : unit -> u <> UPercent -> length_value E vb e u v = SFmul 53 1024 v c' /\ x = q * c) by (intros _ Hu; subst x; unfold length_value; fold c c'; destruct u; try contradiction; split; reflexivity).
  destruct (ProofsUnit.unite_of u) eqn:Eu; try (destruct (S tt) as [-> Ex]; [intros ->; discriminate|]; clear S Hxx;
    pose proof (ap_mul 17 7 _ _ _ _ _ _ ltac:(lia) ltac:(lia) ltac:(lia) Av Au) as Ap; destruct (bd_mul 17 7 v c' ltac:(lia) (proj1 Av) (proj1 Au)) as [_ Kv];
    split; [apply (ap_close _ _ 16) in Ap; [|lia|lia|rewrite <- Ex; exact Hx]; rewrite <- Ex in Ap; revert Ap; apply ap_le; lia|]; rewrite Kv, Hv, Ex; split; intros H0;
    [assert (q = 0) by (destruct (Rmult_integral _ _ H0); lra); subst q; rewrite rnd_0', Rmult_0_l; apply rnd_0'
    |assert (q <= 0) by (apply Rnot_lt_le; intros ?; assert (0 < q * c) by (apply Rmult_lt_0_compat; lra); lra); apply rnd_neg; pose proof (rnd_neg q H); assert (0 <= - rnd q * val c') by (apply Rmult_le_pos; lra); lra]).
  assert (u = UPercent) by (destruct u; try discriminate; reflexivity). subst u. clear S Eu.
  destruct (extent_near vb e HW HH) as (Ag & Ps & Ns & Zs). set (g := full E vb e) in *. set (g' := full X (ex_bounds O Q vb) e) in *.
  assert (Ex : x = q * c / 100 * g') by (rewrite Hxx; unfold length_value; fold c; fold g'; rewrite fnum_real; reflexivity). clear Hxx.
  assert (El : length_value E vb e UPercent v = SFmul 53 1024 (SFdiv 53 1024 (SFmul 53 1024 v c') (fnum E 100)) g) by reflexivity. rewrite El. clear El.
  assert (Hc : c = 1) by (unfold c; cbn; field). assert (Hc' : c' = sf_lit 1 1) by reflexivity. rewrite Hc, Rmult_1_r in Ex.
  assert (Em : SFmul 53 1024 v c' = v) by (rewrite Hc'; apply mul_one; assumption). rewrite Em.
  destruct (num_val O 100 ltac:(lia)) as [N1 N2].
  assert (Ad : ap 11 (2 ^ 57 + 2 ^ 56 + 2 ^ (11 + 47)) (SFdiv 53 1024 v (fnum E 100)) (q / 100)).
  { apply (ap_over 17 11 (2 ^ 64) (2 ^ 57 + 2 ^ 56) v q (fnum E 100) 100); [lia|exact N1|exact N2|lra|cbn; lra| |exact Av]. rewrite <- mult_IZR. apply IZR_le. lia. }
  pose proof (ap_mul 11 18 _ _ _ _ _ _ ltac:(lia) ltac:(lia) ltac:(lia) Ad Ag) as Ap.
  split. { apply (ap_close _ _ 16) in Ap; [|lia|lia|rewrite <- Ex; exact Hx]. rewrite <- Ex in Ap. revert Ap. apply ap_le; lia. }
  destruct (bd_mul 11 18 _ g ltac:(lia) (proj1 Ad) (proj1 Ag)) as [_ Kv]. rewrite Kv, Ex.
  assert (Kd : val (SFdiv 53 1024 v (fnum E 100)) = rnd (rnd q / 100)).
  { destruct (div_round v (fnum E 100) V (proj1 N1) Fi (proj2 N1)) as [_ K2]; [rewrite N2; lra| |rewrite K2, N2, Hv; reflexivity].
    rewrite N2. apply (no_over 17); [lia|]. unfold Rdiv. rewrite Rabs_mult, (Rabs_pos_eq (/ 100)) by lra. destruct Av as ((_ & _ & B) & _). pose proof (Rabs_pos (val v)). lra. }
  rewrite Kd. clear - Ps Ns Zs. set (y := val g) in *. clearbody y g'. split; intros H.
  - apply Rmult_integral in H as [H|H].
    + assert (q = 0) by lra. subst q. rewrite rnd_0'. replace (0 / 100) with 0 by field. rewrite rnd_0', Rmult_0_l. apply rnd_0'.
    + rewrite (Zs H), Rmult_0_r. apply rnd_0'.
  - apply rnd_neg. destruct (Rle_or_lt q 0) as [Hq|Hq].
    + pose proof (rnd_neg q Hq) as H1. pose proof (rnd_neg (rnd q / 100) ltac:(lra)) as H2.
      destruct (Rle_or_lt 0 g') as [Hy%Ps|Hy]; [assert (0 <= - rnd (rnd q / 100) * y) by (apply Rmult_le_pos; lra); lra|].
      destruct (Rle_lt_or_eq_dec q 0 Hq) as [Hl|He0].
      * assert (0 < - (q / 100) * - g') by (apply Rmult_lt_0_compat; lra). lra.
      * subst q. rewrite rnd_0'. replace (0 / 100) with 0 by field. rewrite rnd_0'. lra.
    + pose proof (rnd_pos q ltac:(lra)) as H1. pose proof (rnd_pos (rnd q / 100) ltac:(lra)) as H2.
      assert (Hg : g' <= 0) by (apply Rnot_lt_le; intros ?; assert (0 < q / 100 * g') by (apply Rmult_lt_0_compat; lra); lra). apply Ns in Hg.
      assert (0 <= rnd (rnd q / 100) * - y) by (apply Rmult_le_pos; lra). lra.
Qed.
(** an attribute *)
Lemma attr_near (vb : bounds E) e n attrs x : upto O 17 (bW vb) -> upto O 17 (bH vb) -> exact_attr Q (ex_bounds O Q vb) e n attrs x ->
  exists x', length_attr vb e n attrs x' /\ stands x' x.
Proof using.
  intros HW HH. unfold exact_attr, length_attr.
  assert (K : forall l d d' y, stands d' d -> value_attr (exact_length Q (ex_bounds O Q vb) e) n d l y -> exists x', value_attr (is_length E vb e) n d' l x' /\ stands x' y).
  { induction l as [|a l IH]; intros d d' y Hd H; cbn [value_attr] in *; [subst y; exists d'; auto|]. destruct (String.eqb (a_name a) n); [|eapply IH; eassumption].
    destruct H as (y0 & H1 & H2). destruct (length_near vb e _ _ HW HH H1) as (y' & L1 & L2). destruct (IH _ _ _ L2 H2) as (x' & M1 & M2). exists x'. split; [exists y'; auto|exact M2]. }
  apply K. split; [|split; intros _; change (val (f0 E)) with 0; [reflexivity|lra]]. apply ap_le with (b := 17%Z) (e := 0%Z); [lia|lia|]. apply ap_zero. lia.
Qed.
(** points *)
Lemma on_grid_dot off p : Rabs (fst p) <= pow 18 -> Rabs (snd p) <= pow 18 -> Rabs (fst off) <= pow 17 -> Rabs (snd off) <= pow 17 -> on_grid off p = dot X off p.
Proof using.
  assert (K : forall a b, Rabs a <= pow 18 -> Rabs b <= pow 17 -> Ztrunc (64 * (a + b)) = f_to_i32 X (fmul X (fadd X a b) (fnum X 64))).
  { intros a b Ha Hb. rewrite fnum_real. cbn [f_to_i32 fmul fadd RealEnv]. rewrite Rmult_comm. symmetry. apply wrap32_id, trunc_int32. rewrite Rabs_mult, (Rabs_pos_eq 64) by lra.
    pose proof (Rabs_triang a b). apply Rle_lt_trans with ((pow 18 + pow 17) * 64); [apply Rmult_le_compat_r; lra|]. cbn. lra. }
  intros H1 H2 H3 H4. unfold on_grid, dot. rewrite !K by assumption. reflexivity.
Qed.
Context (off : point E) (Hox : upto O 17 (fst off)) (Hoy : upto O 17 (snd off)).
Notation off' := (value64 (fst off), value64 (snd off)).
Lemma upto_pow n x : upto O n x -> Rabs (val x) <= pow (Z.of_nat n).
Proof using. intros [_ H]. rewrite <- (pow_Z (Z.of_nat n)) by lia. rewrite <- pow_IZR. exact H. Qed.
Lemma spot_near x y x' y' : ap 18 (2 ^ 85) x x' -> ap 18 (2 ^ 85) y y' -> pt_within 1 (dot E off (x, y)) (on_grid off' (x', y')).
Proof using Hox Hoy Q.
  intros H1 H2. rewrite on_grid_dot; cbn [fst snd]; [|apply H1|apply H2|apply (upto_pow 17), Hox|apply (upto_pow 17), Hoy].
  apply (dot_near O Q 8191 off (x, y) (x', y')); [lia|exact Hox|exact Hoy|]. split; cbn [fst snd]; [revert H1|revert H2]; apply ap_le; try lia; unfold Ec; lia.
Qed.
Lemma stands_ap x x' : stands x x' -> ap 18 (2 ^ 85) x x'.
Proof using. intros [H _]. revert H. apply ap_le; lia. Qed.
Lemma stands_sum x x' w w' : stands x x' -> stands w w' -> ap 18 (2 ^ 85) (fadd E w x) (x' + w').
Proof using. intros [H1 _] [H2 _]. rewrite (Rplus_comm x'). pose proof (ap_add 17 _ _ _ _ _ _ ltac:(lia) H2 H1) as H. revert H. apply ap_le; lia. Qed.
(** number lists *)
Lemma numbers_near s vs : reads_exactly Q -> spells_numbers X s vs -> Forall (fun v => Rabs v <= 2 ^ 17) vs -> exists ws, spells_numbers E s ws /\ Forall2 (ap 18 (2 ^ 85)) ws vs.
Proof using.
  intros HQ (l & trail & Es & Hl & Ht & Hv) Hb. destruct (items_read O Q l None vs HQ Hl Hv) as (ws & H1 & H2).
  { eapply Forall_impl; [|exact Hb]. cbn beta. intros v H. apply Rle_trans with (1 := H). replace (2 ^ 17) with (pow 17) by (cbn; lra). apply bpow_le. lia. }
  exists ws. split; [exists l, trail; auto|]. clear - H2. induction H2 as [|a b k j H H2 IH]; [constructor|]. constructor; [|exact IH]. apply (ap_le 18 18 (2 ^ 65)); [lia|lia|]. exact (rd_ap O Q _ _ H).
Qed.
Lemma pairs_near ps ws : Forall2 (ap 18 (2 ^ 85)) ws (flat_map (p1 X) ps) -> exists qs, ws = flat_map (p1 E) qs /\ Forall2 (fun q p => ap 18 (2 ^ 85) (fst q) (fst p) /\ ap 18 (2 ^ 85) (snd q) (snd p)) qs ps.
Proof using.
  revert ws. induction ps as [|[a b] ps IH]; intros ws H; cbn [flat_map p1 app fst snd] in H.
  - inversion H. exists []. split; [reflexivity|constructor].
  - inversion H as [|x ? ws1 ? H1 H2]; subst. inversion H2 as [|y ? ws2 ? H3 H4]; subst. destruct (IH _ H4) as (qs & -> & K). exists ((x, y) :: qs). split; [reflexivity|]. constructor; [split; assumption|exact K].
Qed.
Lemma lines_near qs ps : Forall2 (fun q p => ap 18 (2 ^ 85) (fst q) (fst p) /\ ap 18 (2 ^ 85) (snd q) (snd p)) qs ps ->
  Forall2 (op_within 1) (map (fun q => OpLineTo (dot E off q)) qs) (map (fun p => OpLineTo (on_grid off' p)) ps).
Proof using Hox Hoy Q. induction 1 as [|[a b] [a' b'] qs ps [H1 H2] H IH]; [constructor|]. cbn [map]. constructor; [|exact IH]. constructor. now apply spot_near. Qed.
Lemma points_read attrs p ps : reads_exactly Q -> exact_points Q attrs (p :: ps) -> (2 <= List.length ps)%nat ->
  exists s q qs, attr_once "points" attrs s /\ spells_numbers E s (flat_map (p1 E) (q :: qs)) /\ (2 <= List.length qs)%nat
    /\ pt_within 1 (dot E off q) (on_grid off' p) /\ Forall2 (op_within 1) (map (fun q => OpLineTo (dot E off q)) qs) (map (fun p => OpLineTo (on_grid off' p)) ps).
Proof using Hox Hoy Q.
  intros HQ (s & H1 & H2 & H3) Hl. destruct (numbers_near s _ HQ H2 H3) as (ws & K1 & K2). destruct (pairs_near _ _ K2) as (qs & -> & K3).
  inversion K3 as [|[a b] [a' b'] qs1 ? [A1 A2] K4]; subst. assert (Hlen : List.length qs1 = List.length ps) by (clear - K4; induction K4; cbn [List.length]; congruence).
  exists s, (a, b), qs1. split; [exact H1|]. split; [exact K1|]. split; [exact (eq_ind_r (fun n => (2 <= n)%nat) Hl Hlen)|]. split; [now apply spot_near|now apply lines_near].
Qed.
Lemma stands_nonzero w w' : stands w w' -> / 2 ^ 16 <= Rabs w' -> feqb E w (f0 E) = false.
Proof using.
  intros [((V & Fi & _) & H & _) _] Hw. destruct (feqb E w (f0 E)) eqn:Hz; [|reflexivity]. exfalso. cbn [feqb F64] in Hz.
  assert (Hv : val w = 0). { destruct w as [s|s| |s m e]; try reflexivity. destruct s; discriminate Hz. }
  rewrite Hv in H. replace (0 - w') with (- w') in H by ring. rewrite Rabs_Ropp in H. rewrite pow_Z in H by lia. rewrite <- bpow_plus in H. change (pow (80 + -100)) with (/ 1048576) in H. lra.
Qed.
Lemma stands_zero w w' : stands w w' -> w' = 0 -> feqb E w (f0 E) = true.
Proof using.
  intros [((V & Fi & _) & _) [H _]] Hw. specialize (H Hw). destruct w as [s|s| |s m e]; try contradiction; [destruct s; reflexivity|]. exfalso. revert H. unfold SF2R. intros H. apply F2R_eq_0 in H || apply eq_0_F2R in H. cbn in H. destruct s; discriminate.
Qed.
Lemma stands_neg w w' : stands w w' -> w' <= 0 -> fleb E w (f0 E) = true.
Proof using.
  intros [((V & Fi & _) & _) [_ H]] Hw. specialize (H Hw). cbn [fleb F64]. destruct (SFleb w (f0 E)) eqn:Hl; [reflexivity|]. exfalso.
  destruct w as [s|s| |s m e]; try contradiction; [destruct s; discriminate|]. destruct s; [discriminate|]. assert (0 < val (S754_finite false m e)) by (apply F2R_gt_0; reflexivity). lra.
Qed.
Lemma centre_finite x x' w w' o : stands x x' -> stands w w' -> upto O 17 o ->
  finite64 (fdiv E (fadd E (fadd E x o) (fadd E (fadd E w x) o)) (fnum E 2)).
Proof using.
  intros Hx Hw Ho. pose proof (stands_sum _ _ _ _ Hx Hw) as H1. apply stands_ap in Hx. apply upto_ap in Ho. change (Z.of_nat 17) with 17%Z in Ho. apply (ap_le 17 18 _ _ _ _ ltac:(lia) (Z.le_refl _)) in Ho.
  pose proof (ap_add 18 _ _ _ _ _ _ ltac:(lia) Hx Ho) as H2. pose proof (ap_add 18 _ _ _ _ _ _ ltac:(lia) H1 Ho) as H3. pose proof (ap_add 19 _ _ _ _ _ _ ltac:(lia) H2 H3) as H4.
  destruct (num_val O 2 ltac:(lia)) as [N1 N2]. pose proof (ap_half 20 _ _ _ (fnum E 2) ltac:(lia) N1 N2 H4) as ((V & Fi & _) & _). split; assumption.
Qed.
Ltac ends_of := repeat (apply Forall2_cons; [first [apply ow_move; apply spot_near|apply ow_line; apply spot_near|apply ow_close]|]); [..|apply Forall2_nil].
Theorem shape_close (vb : bounds E) name attrs p : trig0 O -> reads_exactly Q -> upto O 17 (bW vb) -> upto O 17 (bH vb) ->
  exact_shape Q (ex_bounds O Q vb) off' name attrs p -> exists q, shape E vb off name attrs q /\ Forall2 (op_within 1) q p.
Proof using Hox Hoy.
  intros HT HQ HW HH H. pose proof (fun e n x => attr_near vb e n attrs x HW HH) as HA.
  destruct H as [attrs x1 y1 x2 y2 H1 H2 H3 H4|attrs p ps H1 H2|attrs p ps H1 H2|attrs s cs H1 H2 H3 H4 H5|attrs H1|attrs x y w h rx ry H1 H2 H3 H4 H5 H6 H7 H8 H9 H10|attrs x y w h rx ry H1 H2 H3 H4 H5 H6 H7].
  - apply HA in H1 as (a1 & A1 & S1), H2 as (a2 & A2 & S2), H3 as (a3 & A3 & S3), H4 as (a4 & A4 & S4).
    eexists. split; [exact (sh_line E vb off attrs a1 a2 a3 a4 A1 A2 A3 A4)|]. ends_of; apply stands_ap; assumption.
  - destruct (points_read attrs p ps HQ H1 H2) as (s & q & qs & K1 & K2 & K3 & K4 & K5). eexists. split; [exact (sh_polyline E vb off attrs s q qs K1 K2 K3)|]. constructor; [constructor; exact K4|exact K5].
  - destruct (points_read attrs p ps HQ H1 H2) as (s & q & qs & K1 & K2 & K3 & K4 & K5). eexists. split; [exact (sh_polygon E vb off attrs s q qs K1 K2 K3)|]. constructor; [constructor; exact K4|]. apply Forall2_app; [exact K5|]. constructor; [constructor|constructor].
  - pose proof (sets_pos cs) as Hp. destruct (read_spelled O Q s cs off HQ H2 H3 H4 ltac:(lia) Hox Hoy) as (ks & K1 & K2 & K3). eexists. split; [exact (sh_path E vb off attrs s ks H1 K1 K2)|].
    replace (sets cs * sets cs / 2 ^ 26)%Z with 0%Z in K3 by (symmetry; apply Z.div_small; change (2 ^ 26)%Z with (8192 * 8192)%Z; nia). exact K3.
  - exists []. split; [now constructor|constructor].
  - apply HA in H1 as (a1 & A1 & S1), H2 as (a2 & A2 & S2), H3 as (a3 & A3 & S3), H4 as (a4 & A4 & S4), H5 as (a5 & A5 & S5), H6 as (a6 & A6 & S6).
    destruct (centre_finite _ _ _ _ _ S1 S3 Hox) as [C1 C2]. destruct (centre_finite _ _ _ _ _ S2 S4 Hoy) as [C3 C4].
    eexists. split; [exact (sh_rect E vb off attrs a1 a2 a3 a4 a5 a6 A1 A2 A3 A4 A5 A6 (stands_nonzero _ _ S3 H7) (stands_nonzero _ _ S4 H8) (stands_neg _ _ S5 H9) (stands_neg _ _ S6 H10) (unmoved_F64 O _ _ HT C1 C3 C2 C4))|].
    ends_of; try apply stands_sum; try apply stands_ap; assumption.
  - apply HA in H1 as (a1 & A1 & S1), H2 as (a2 & A2 & S2), H3 as (a3 & A3 & S3), H4 as (a4 & A4 & S4), H5 as (a5 & A5 & S5), H6 as (a6 & A6 & S6).
    exists []. split; [|constructor]. apply (sh_rect_flat E vb off attrs a1 a2 a3 a4 a5 a6 A1 A2 A3 A4 A5 A6). destruct H7 as [H7|H7]; [left; exact (stands_zero _ _ S3 H7)|right; exact (stands_zero _ _ S4 H7)].
Qed.
(** circles and ellipses *)
Lemma centre_ap x x' o : stands x x' -> upto O 17 o -> ap 18 (2 ^ 82) (fadd E x o) (x' + val o).
Proof using. intros [H1 _] H2%upto_ap. pose proof (ap_add 17 _ _ _ _ _ _ ltac:(lia) H1 H2) as H. revert H. apply ap_le; lia. Qed.
Lemma round_fold (c : cursor E) name attrs cx' cy' rx' ry' : offset c = off -> upto O 17 (bW (sv_viewBox (c_svg c))) -> upto O 17 (bH (sv_viewBox (c_svg c))) ->
  round_at Q (ex_bounds O Q (sv_viewBox (c_svg c))) off' name attrs cx' cy' rx' ry' ->
  (name = "circle" \/ name = "ellipse")%string /\ exists cx cy rx ry, foldM circleAttr (f0 E, f0 E, f0 E, f0 E) attrs c = (c, Ret (cx, cy, rx, ry))
    /\ ap 18 (2 ^ 82) (fadd E cx (fst (offset c))) cx' /\ ap 18 (2 ^ 82) (fadd E cy (snd (offset c))) cy' /\ stands rx rx' /\ stands ry ry'.
Proof using Hox Hoy.
  intros Hoff HW HH H. pose proof (fun e n x => attr_near (sv_viewBox (c_svg c)) e n attrs x HW HH) as HA. rewrite Hoff.
  destruct H as [attrs cx cy r H1 H2 H3 H4 H5|attrs cx cy rx ry H1 H2 H3 H4 H5].
  - apply HA in H1 as (a1 & A1 & S1), H2 as (a2 & A2 & S2), H3 as (a3 & A3 & S3). split; [left; reflexivity|]. exists a1, a2, a3, a3. split; [apply circle_fold; assumption|].
    split; [exact (centre_ap _ _ _ S1 Hox)|]. split; [exact (centre_ap _ _ _ S2 Hoy)|]. split; assumption.
  - apply HA in H1 as (a1 & A1 & S1), H2 as (a2 & A2 & S2), H3 as (a3 & A3 & S3), H4 as (a4 & A4 & S4). split; [right; reflexivity|]. exists a1, a2, a3, a4. split; [apply ellipse_fold; assumption|].
    split; [exact (centre_ap _ _ _ S1 Hox)|]. split; [exact (centre_ap _ _ _ S2 Hoy)|]. split; assumption.
Qed.
Theorem round_close (c : cursor E) name attrs p : fair_trig O -> offset c = off -> upto O 17 (bW (sv_viewBox (c_svg c))) -> upto O 17 (bH (sv_viewBox (c_svg c))) -> pc_path (c_pc c) = [] ->
  exact_round Q (ex_bounds O Q (sv_viewBox (c_svg c))) off' name attrs p ->
  (name = "circle" \/ name = "ellipse")%string /\ exists q, draws_as circleF attrs c q /\ Forall2 (op_within 1) q p.
Proof using Hox Hoy.
  intros HF Hoff HW HH Hp H. destruct H as [name attrs cx' cy' rx' ry' H L1 L2|name attrs cx' cy' rx' ry' H N];
    destruct (round_fold c name attrs cx' cy' rx' ry' Hoff HW HH H) as (Hn & cx & cy & rx & ry & Hf & S1 & S2 & S3 & S4); (split; [exact Hn|]).
  - destruct (ellipseAt_near O HF _ _ rx ry _ _ rx' ry' S1 S2 (proj1 S3) (proj1 S4) L1 L2 (c_pc c) Hp) as (pc' & H1 & H2 & H3 & H4).
    exists (pc_path pc'). split; [|exact H2]. exists pc'. split; [|auto].
    assert (N1 : feqb E rx (f0 E) = false) by (apply (stands_nonzero _ rx'); [exact S3|rewrite Rabs_pos_eq; lra]).
    assert (N2 : feqb E ry (f0 E) = false) by (apply (stands_nonzero _ ry'); [exact S4|rewrite Rabs_pos_eq; lra]).
    exact (circleF_runs attrs cx cy rx ry c pc' Hf N1 N2 H1).
  - exists []. split; [|constructor]. exists (c_pc c). rewrite c_pc_same. split; [apply (circleF_flat attrs cx cy rx ry c Hf)|split; [exact Hp|split; [apply fr_refl|reflexivity]]].
    destruct N as [N|N]; [left; exact (stands_zero _ _ S3 N)|right; exact (stands_zero _ _ S4 N)].
Qed.
End Measure.

(** ** Elements and documents *)
Lemma plain_draws {E : Env} (add_comm : forall a b, fadd E a b = fadd E b a) fuel vb off name attrs p (c : cursor E) : name <> "circle"%string -> name <> "ellipse"%string ->
  SpecDoc.shape E vb off name attrs p -> sv_viewBox (c_svg c) = vb -> offset c = off -> pc_path (c_pc c) = [] ->
  exists df, drawFuncs fuel name = Some df /\ draws_as df attrs c p.
Proof.
  intros N1 N2 H Hvb Hoff Hp. subst vb off.
  assert (none : forall df : list attr -> @C E unit, df attrs c = (c, Ret tt) -> draws_as df attrs c []).
  { intros df Hd. exists (c_pc c). rewrite c_pc_same. split; [exact Hd|]. split; [exact Hp|]. split; [apply fr_refl|reflexivity]. }
  destruct H; try contradiction; try (eexists; split; [reflexivity|]).
  - apply line_draws; assumption.
  - eapply polyline_draws; eassumption.
  - eapply polygon_draws; eassumption.
  - eapply path_draws; eassumption.
  - apply none, path_none; assumption.
  - eapply rect_draws; eassumption.
  - apply none. eapply rect_flat; eassumption.
Qed.
Lemma exact_plain Q vb off name attrs p : exact_shape Q vb off name attrs p -> name <> "circle"%string /\ name <> "ellipse"%string.
Proof. intros H. destruct H; split; discriminate. Qed.
Lemma same_empty m (p q : path) : Forall2 (op_within m) p q -> (q = [] <-> p = []).
Proof. intros H. destruct H; split; intros; (reflexivity || discriminate). Qed.
Section Elements.
Context (O : Oracles) (Q : ROracles) (HT : trig0 O) (HQ : reads_exactly Q).
Notation E := (F64 O).
Lemma meant_draws fuel name attrs (c : cursor E) p : pc_path (c_pc c) = [] -> meant O Q (sv_viewBox (c_svg c)) (offset c) name attrs p ->
  exists df q, drawFuncs fuel name = Some df /\ draws_as df attrs c q /\ Forall2 (op_within 1) q p.
Proof using HT HQ.
  intros Hp ((W & H) & (X & Y) & [He|[HF He]]); [|destruct (round_close O Q (offset c) X Y c name attrs p HF eq_refl W H Hp He) as ([->| ->] & q & D & Hq); exists circleF, q; auto].
  destruct (exact_plain _ _ _ _ _ _ He) as [N1 N2].
  destruct (shape_close O Q (offset c) X Y _ name attrs p HT HQ W H He) as (q & Hs & Hq).
  destruct (plain_draws (F64_add_comm O) fuel _ _ name attrs q c N1 N2 Hs eq_refl eq_refl Hp) as (df & D1 & D2). exists df, q. auto.
Qed.
Theorem meant_element fuel name attrs (c : cursor E) p : pc_path (c_pc c) = [] -> meant O Q (sv_viewBox (c_svg c)) (offset c) name attrs p ->
  exists q, element_draws fuel name attrs c q /\ Forall2 (op_within 1) q p.
Proof using HT HQ.
  intros Hp H. destruct (meant_draws fuel name attrs c p Hp H) as (df & q & H1 & (pc' & H2 & H3 & _) & H4). exists q. split; [|exact H4]. exists df, (c_set_pc pc' c). auto.
Qed.
(** all exact outlines of an element are within 1/64 of the one drawn *)
Lemma draws_nearly fuel name attrs (c : cursor E) df pc' p : pc_path (c_pc c) = [] -> drawFuncs fuel name = Some df -> df attrs c = (c_set_pc pc' c, Ret tt) ->
  meant O Q (sv_viewBox (c_svg c)) (offset c) name attrs p -> Forall2 (op_within 1) (pc_path pc') p.
Proof using HT HQ.
  intros Hp Hdf Hd H. destruct (meant_draws fuel name attrs c p Hp H) as (df' & q & Hdf' & (pc2 & D1 & D2 & _) & Hq). rewrite Hdf in Hdf'. injection Hdf' as <-.
  rewrite Hd in D1. injection D1 as D1. rewrite D1, D2. exact Hq.
Qed.
Theorem nearly_faithful md : faithful md 0 (nearly O Q).
Proof using HT HQ.
  intros fuel vb off name attrs p0 c _ [(p & H) Hp0]. pose proof (Hp0 p H) as Hp. split.
  { destruct H as (_ & _ & [H|[_ H]]); [destruct H; cbn; auto 9|]. destruct H as [name attrs cx cy rx ry H _ _|name attrs cx cy rx ry H _]; destruct H; cbn; auto 9. }
  intros HM H1 H2 H3. subst vb off. destruct (meant_draws fuel name attrs c p H3 H) as (df & q & Hdf & (pc' & D1 & D2 & (D3 & D4 & D5) & _) & Hq).
  exists df, pc'. split; [exact Hdf|]. split; [exact D1|]. split; [unfold offset; congruence|]. split; [congruence|]. split.
  - split; [exists p; exact H|]. intros p' H'. exact (draws_nearly fuel name attrs c df pc' p' H3 Hdf D1 H').
  - rewrite D2. pose proof (same_empty _ _ _ Hq). pose proof (same_empty _ _ _ Hp). tauto.
Qed.
Lemma meant_nearly vb off name attrs p : meant O Q vb off name attrs p -> exists q, nearly O Q vb off name attrs q /\ (p = [] <-> q = []).
Proof using HT HQ.
  intros H. set (c := start_at E IgnoreErrorMode vb off). assert (Hc : sv_viewBox (c_svg c) = vb /\ offset c = off /\ pc_path (c_pc c) = []) by (destruct off; now repeat split).
  destruct Hc as (C1 & C2 & C3). clearbody c. pose proof H as H'. rewrite <- C1, <- C2 in H'.
  destruct (meant_draws 0 name attrs c p C3 H') as (df & q & Hdf & (pc' & D1 & D2 & _) & Hq). exists q. split; [|exact (same_empty _ _ _ Hq)].
  split; [exists p; exact H|]. intros p' Hp'. rewrite <- D2. rewrite <- C1, <- C2 in Hp'. exact (draws_nearly 0 name attrs c df pc' p' C3 Hdf D1 Hp').
Qed.
Theorem meant_document (Hnames : name_table E) fuel mode lenient dep ns vb w : (dep <= fuel)%nat ->
  document E (meant O Q) lenient dep ns vb w -> (lenient = true -> mode <> StrictErrorMode) ->
  exists s log, parse (S fuel) mode (flat_map tokens ns) TermEOF = PSvg s None log /\ shows E (nearly O Q) vb w s
    /\ sv_width s = text_attr "width" "" (root_attrs ns) /\ sv_height s = text_attr "height" "" (root_attrs ns).
Proof using HT HQ.
  intros Hf (pre & attrs & kids & post & st & t & u & H1 & H2 & H3 & H4 & H5 & H6) Hl.
  apply (document_parses_any (nearly O Q) mode 0 (nearly_faithful mode) Hnames fuel lenient dep ns vb w Hf); [|exact Hl].
  exists pre, attrs, kids, post, st, t, u. repeat (split; [assumption|]). revert H6. apply sem_mono. intros off name as_ p H. exact (meant_nearly vb off name as_ p H).
Qed.
End Elements.

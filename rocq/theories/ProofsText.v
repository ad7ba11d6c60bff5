(** * ProofsText: the text of a path, parsed again *)
From Coq Require Import ZArith Lia Reals Lra Floats.SpecFloat.
From Flocq Require Import Core.Core IEEE754.BinarySingleNaN.
From Verif Require Import F64 SpecText ProofsStr ProofsPath3 ProofsPath4 ProofsFlocq ProofsF64 ProofsDec.
Local Open Scope Z_scope.

Lemma cut_eq z : Z.abs z < 2 ^ 24 ->
  (if z <? 0 then -1 else 1) * (8 * Z.of_N (milli z) / 125) = cut z /\ (milli z < 2 ^ 40)%N /\ Z.abs (cut z) < 2 ^ 24.
Proof.
  intros Hz. unfold cut, lossless. set (a := Z.abs z) in *.
  set (q := 125 * a / 8). set (r := 125 * a mod 8).
  assert (DM : 125 * a = 8 * q + r) by (apply Z.div_mod; lia). assert (RB : 0 <= r < 8) by (apply Z.mod_pos_bound; lia).
  assert (Em : Z.of_N (milli z) = if r <? 4 then q else if 4 <? r then q + 1 else if Z.even q then q else q + 1).
  { unfold milli. assert (Ea : Z.of_N (Z.abs_N z) = a) by apply N2Z.inj_abs_N.
    set (q0 := (125 * Z.abs_N z / 8)%N). set (r0 := ((125 * Z.abs_N z) mod 8)%N).
    assert (E1 : Z.of_N q0 = q) by (unfold q0; rewrite N2Z.inj_div, N2Z.inj_mul, Ea; reflexivity).
    assert (E2 : Z.of_N r0 = r) by (unfold r0; rewrite N2Z.inj_mod, N2Z.inj_mul, Ea; reflexivity).
    assert (E3 : N.even q0 = Z.even q) by (rewrite <- E1; destruct q0 as [|[]]; reflexivity).
    rewrite E3. destruct (N.ltb_spec r0 4), (Z.ltb_spec r 4); try lia; destruct (N.ltb_spec 4 r0), (Z.ltb_spec 4 r); try lia; destruct (Z.even q); lia. }
  assert (Sg : z = (if z <? 0 then -1 else 1) * a /\ Z.sgn z = (if z <? 0 then -1 else 1) * Z.sgn a) by (unfold a; destruct (Z.ltb_spec z 0); lia).
  destruct Sg as [S1 S2]. rewrite <- Z.negb_even.
  assert (K : 8 * Z.of_N (milli z) / 125 = if (r =? 0) || (4 <? r) || (r =? 4) && negb (Z.even q) then a else a - Z.sgn a).
  { rewrite Em. destruct (Z.eqb_spec r 0); cbn [orb].
    - destruct (Z.ltb_spec r 4); [|lia]. symmetry. apply Z.div_unique with 0; lia.
    - destruct (Z.ltb_spec 4 r); cbn [orb].
      + destruct (Z.ltb_spec r 4); [lia|]. symmetry. apply Z.div_unique with (8 * (q + 1) - 125 * a); lia.
      + destruct (Z.eqb_spec r 4); cbn [andb].
        * destruct (Z.ltb_spec r 4); [lia|]. destruct (Z.even q); cbn [negb].
          -- symmetry. apply Z.div_unique with (8 * q - 125 * (a - Z.sgn a)); lia.
          -- symmetry. apply Z.div_unique with (8 * (q + 1) - 125 * a); lia.
        * destruct (Z.ltb_spec r 4); [|lia]. symmetry. apply Z.div_unique with (8 * q - 125 * (a - Z.sgn a)); lia. }
  rewrite K. split; [|split].
  - rewrite S2. destruct (_ || _); [lia|]. rewrite Z.mul_sub_distr_l. lia.
  - assert (Z.of_N (milli z) <= q + 1) by (rewrite Em; destruct (r <? 4); [lia|]; destruct (4 <? r); [lia|]; destruct (Z.even q); lia). lia.
  - destruct (_ || _); lia.
Qed.
Section Text.
Context (O : Oracles).
Notation K := (F64 O).
Definition num_of (z : Z) : numeral := num3 (z <? 0) (milli z).
Definition value_of (z : Z) : F K := sf_rat (z <? 0) (milli z) 1000.
Lemma value_ok z : small z = true -> num_value K (num_of z) = Some (value_of z) /\ valid (value_of z) /\ finite (value_of z)
  /\ (Rabs (val (value_of z)) < bpow radix2 18)%R /\ Ztrunc (64 * val (value_of z)) = cut z.
Proof.
  intros Hs. apply Z.ltb_lt in Hs. destruct (cut_eq z Hs) as (E1 & E2 & E3).
  destruct (read3 O (z <? 0) (milli z) E2) as (H1 & H2 & H3 & H4 & H5). rewrite E1 in H5.
  repeat split; auto. unfold value_of.
  assert (B : (Rabs (64 * val (sf_rat (z <? 0) (milli z) 1000)) < 16777216)%R).
  { set (v := (64 * _)%R) in *. assert (Hc : Z.abs (Ztrunc v) <= 16777215) by (rewrite H5; lia). apply IZR_le in Hc. rewrite abs_IZR in Hc.
    destruct (Rle_or_lt 0 v).
    - rewrite Ztrunc_floor in Hc by assumption. pose proof (Zfloor_ub v). apply Rabs_def2 in Hc || apply Rabs_le_inv in Hc. rewrite Rabs_pos_eq by assumption. lra.
    - rewrite Ztrunc_ceil in Hc by lra. pose proof (Zceil_lb v). apply Rabs_le_inv in Hc. rewrite Rabs_left by assumption. lra. }
  rewrite Rabs_mult, (Rabs_pos_eq 64) in B by lra. cbn. lra.
Qed.
Definition c0 : F K := fnum K 0.
Lemma spot_ok z : small z = true -> f_to_i32 K (fmul K (fadd K (value_of z) c0) (fnum K 64)) = cut z.
Proof.
  intros Hs. destruct (value_ok z Hs) as (_ & V & Fi & B & T). cbn [f_to_i32 fmul fadd F64]. unfold prec64, emax64, c0, fnum. cbn [flit F64].
  assert (Z0 : valid (sf_lit 0 1) /\ finite (sf_lit 0 1) /\ val (sf_lit 0 1) = 0%R) by (repeat split; reflexivity). destruct Z0 as (Z1 & Z2 & Z3).
  assert (Hr : rnd (val (value_of z) + val (sf_lit 0 1)) = val (value_of z)).
  { rewrite Z3, Rplus_0_r. apply rnd_id, val_format, V. }
  destruct (add_round (value_of z) (sf_lit 0 1) V Z1 Fi Z2) as (A1 & A2). { rewrite Hr. apply val_lt, V. }
  rewrite Hr in A2. set (w := SFadd 53 1024 (value_of z) (sf_lit 0 1)) in *. cbn [F F64] in *.
  pose proof (grid_val O w) as G. rewrite A2 in G. rewrite <- T. apply G; [apply add_valid; assumption|exact A1|].
  eapply Rlt_trans; [exact B|]. apply bpow_lt. lia.
Qed.
Definition v2 (a : pt) : point K := (value_of (fst a), value_of (snd a)).
Definition cmd_of (o : op) : cmd K :=
  match o with
  | OpMoveTo a => MoveTo (E := K) false (v2 a) []
  | OpLineTo b => LineTo (E := K) false (v2 b) []
  | OpQuadTo b c => QuadTo (E := K) false (v2 b, v2 c) []
  | _ => ClosePath
  end.
Lemma dot_ok a : all_pt small a = true -> dot K (c0, c0) (v2 a) = map_pt cut a.
Proof. intros H. apply andb_prop in H as [H1 H2]. unfold dot, v2, map_pt. cbn [fst snd]. rewrite !spot_ok by assumption. reflexivity. Qed.
Lemma run_ok p : writable p = true -> forall s, snd (run K (c0, c0) s (map cmd_of p)) = map (map_op cut) p.
Proof.
  unfold run. induction p as [|o p IH]; intros Hw s; [reflexivity|]. unfold writable in Hw. cbn [forallb] in Hw. apply andb_prop in Hw as [Ho Hp]. apply andb_prop in Ho as [Hc Ho].
  cbn [map many]. assert (HE : exists s1, exec K (c0, c0) s (cmd_of o) = (s1, [map_op cut o])).
  { destruct o; try discriminate; cbn [cmd_of exec many all_op map_op] in *.
    - eexists. cbn [absolute]. rewrite dot_ok by exact Ho. reflexivity.
    - unfold line. cbn [absolute app]. rewrite dot_ok by exact Ho. eexists. reflexivity.
    - apply andb_prop in Ho as [H1 H2]. unfold quad. cbn [absolute app fst snd]. rewrite !dot_ok by assumption. eexists. reflexivity.
    - eexists. reflexivity. }
  destruct HE as (s1 & ->). specialize (IH Hp s1). destruct (many K (exec K (c0, c0)) s1 (map cmd_of p)) as [s2 o2]. cbn [snd] in *. rewrite IH. reflexivity.
Qed.
Lemma closes_ok p : forall b, forallb no_cubic p = true -> closes b p = true -> closes_open K b (map cmd_of p) = true.
Proof.
  induction p as [|o p IH]; intros b Hc H; [reflexivity|]. cbn [forallb] in Hc. apply andb_prop in Hc as [Ho Hc].
  destruct o; try discriminate; cbn [map cmd_of closes_open closes] in *; try (apply IH; assumption).
  apply andb_prop in H as [-> H]. cbn [andb]. apply IH; assumption.
Qed.
(** the numbers of one operation *)
Definition zs (l : list pt) : list Z := flat_map (fun a => [fst a; snd a]) l.
Fixpoint comma_items (l : list Z) : items := match l with [] => [] | z :: r => (","%string, num_of z) :: comma_items r end.
Definition op_items (l : list Z) : items := match l with [] => [] | z :: r => (""%string, num_of z) :: comma_items r end.
Lemma comma_text l : forallb small l = true -> items_text (comma_items l) = String.concat "" (map (fun z => "," ++ coord (E := K) z)%string l).
Proof.
  induction l as [|z l IH]; intros H; [reflexivity|]. cbn [forallb] in H. apply andb_prop in H as [Hz H]. cbn [comma_items items_text map].
  rewrite IH by exact H. unfold num_of. rewrite <- (coord_text O z) by (apply Z.ltb_lt, Hz). destruct l; [cbn; rewrite ?sapp_nil_r; reflexivity|]. cbn [map String.concat]. rewrite sapp_assoc. reflexivity.
Qed.
Lemma op_text l : forallb small l = true -> items_text (op_items l) = String.concat "," (map (coord (E := K)) l).
Proof.
  destruct l as [|z l]; intros H; [reflexivity|]. cbn [forallb] in H. apply andb_prop in H as [Hz H]. cbn [op_items items_text map].
  unfold num_of at 1. rewrite <- (coord_text O z) by (apply Z.ltb_lt, Hz). cbn [String.append]. clear Hz. revert z H.
  induction l as [|y l IH]; intros z H; [cbn; rewrite ?sapp_nil_r; reflexivity|]. cbn [forallb] in H. apply andb_prop in H as [Hy H].
  cbn [comma_items items_text]. unfold num_of at 1. rewrite <- (coord_text O y) by (apply Z.ltb_lt, Hy).
  rewrite IH by exact H. cbn [map String.concat]. destruct l; reflexivity.
Qed.
Lemma comma_legal l : forall p, legal_items (Some p) (comma_items l) = true.
Proof.
  induction l as [|z l IH]; intros p; [reflexivity|]. cbn [comma_items legal_items]. unfold num_of at 1. rewrite num3_legal, IH. reflexivity.
Qed.
Lemma op_numbers l w : forallb small l = true -> seps w = true -> spells_numbers K (String.concat "," (map (coord (E := K)) l) ++ w) (map value_of l).
Proof.
  intros H Hw. exists (op_items l), w. split; [rewrite op_text by exact H; reflexivity|]. split; [|split; [exact Hw|]].
  - destruct l as [|z l]; [reflexivity|]. cbn [op_items legal_items]. unfold num_of at 1. rewrite num3_legal, comma_legal. reflexivity.
  - assert (A : map (fun it => num_value K (snd it)) (comma_items l) = map Some (map value_of l)).
    { clear w Hw. induction l as [|z l IH]; [reflexivity|]. cbn [forallb] in H. apply andb_prop in H as [Hz H]. cbn [comma_items map snd].
      rewrite (proj1 (value_ok z Hz)), IH by exact H. reflexivity. }
    destruct l; exact A.
Qed.
Lemma op_spells o w s cs : no_cubic o && all_op small o = true -> seps w = true -> spells_commands K s cs ->
  spells_commands K (opString (E := K) o ++ w ++ s) (cmd_of o :: cs).
Proof.
  intros H Hw Hs. apply andb_prop in H as [Hc Ho].
  assert (N : forall l, forallb small (zs l) = true -> spells_numbers K (pts (E := K) l ++ w) (map value_of (zs l))).
  { intros l Hl. unfold pts, joinStr. replace (flat_map _ l) with (map (coord (E := K)) (zs l)); [apply op_numbers; assumption|].
    clear. unfold zs. induction l as [|a l IH]; [reflexivity|]. cbn [flat_map map app]. rewrite IH. reflexivity. }
  destruct o; try discriminate; cbn [all_op] in Ho; unfold all_pt in Ho; cbn [opString String.append cmd_of]; rewrite ?ProofsStr.sapp_nil_r.
  - rewrite <- sapp_assoc. apply (spells_cons K (MoveTo (E := K) false (v2 a) [])); [|exact Hs]. apply (N [a]). cbn. rewrite Bool.andb_true_r. exact Ho.
  - rewrite <- sapp_assoc. apply (spells_cons K (LineTo (E := K) false (v2 b) [])); [|exact Hs]. apply (N [b]). cbn. rewrite Bool.andb_true_r. exact Ho.
  - rewrite <- sapp_assoc. apply (spells_cons K (QuadTo (E := K) false (v2 b, v2 c) [])); [|exact Hs]. apply (N [b; c]). cbn. rewrite Bool.andb_true_r.
    rewrite !Bool.andb_assoc in *. exact Ho.
  - apply (spells_cons K ClosePath); [|exact Hs]. exists [], w. repeat split; assumption.
Qed.
(** a list of operations, each followed by a space *)
Fixpoint spaced (p : path) : string := match p with [] => "" | o :: r => (opString (E := K) o ++ " " ++ spaced r)%string end.
Lemma spaced_spells p : writable p = true -> spells_commands K (spaced p) (map cmd_of p).
Proof.
  induction p as [|o p IH]; intros H; [constructor|]. unfold writable in H. cbn [forallb] in H. apply andb_prop in H as [Ho Hp].
  cbn [spaced map]. apply op_spells; [exact Ho|reflexivity|]. apply IH, Hp.
Qed.
Lemma text_spells p : writable p = true -> spells_commands K (toSVGPath (E := K) p) (map cmd_of p).
Proof.
  induction p as [|o p IH]; intros H; [constructor|]. unfold writable in H. cbn [forallb] in H. apply andb_prop in H as [Ho Hp].
  unfold toSVGPath, joinStr. cbn [map String.concat]. destruct p as [|o' p].
  - rewrite <- (sapp_nil_r (opString o)). change ""%string with ("" ++ "")%string. apply op_spells; [exact Ho|reflexivity|constructor].
  - apply op_spells; [exact Ho|reflexivity|]. apply IH, Hp.
Qed.
Lemma writable_plain p : writable p = true -> forallb no_cubic p = true.
Proof. unfold writable. rewrite !forallb_forall. intros H o Ho. apply H, andb_prop in Ho. apply Ho. Qed.
Theorem text_again p (c : pcur K) : pc_curX c = fnum K 0 -> pc_curY c = fnum K 0 -> writable p = true -> closes false p = true ->
  exists c', compilePath (toSVGPath (E := K) p) c = (c', Ret tt) /\ pc_path c' = map (map_op cut) p /\ pc_log c' = pc_log c.
Proof.
  intros Hx Hy Hw Hc. destruct (compilePath_draws (F64_add_comm O) (toSVGPath (E := K) p) (map cmd_of p) c) as (c' & H1 & H2 & _ & H3).
  - exists ""%string, (toSVGPath (E := K) p). split; [reflexivity|]. split; [reflexivity|]. apply text_spells, Hw.
  - apply closes_ok; [apply writable_plain, Hw|exact Hc].
  - exists c'. split; [exact H1|]. split; [|exact H3]. rewrite H2. unfold draws. rewrite Hx, Hy. apply run_ok, Hw.
Qed.
Theorem text_cubic p b1 b2 b3 rest (c : pcur K) : pc_curX c = fnum K 0 -> pc_curY c = fnum K 0 -> writable p = true -> closes false p = true ->
  exists c', compilePath (toSVGPath (E := K) (p ++ OpCubicTo b1 b2 b3 :: rest)) c = (c', Err ErrParamMismatch) /\ pc_path c' = map (map_op cut) p.
Proof.
  intros Hx Hy Hw Hc.
  assert (Hj : exists t, toSVGPath (E := K) (p ++ OpCubicTo b1 b2 b3 :: rest) = (spaced p ++ String "C" ("" ++ String "C" t))%string).
  { clear. induction p as [|o p IH].
    - cbn [app spaced String.append]. unfold toSVGPath, joinStr. cbn [map opString]. destruct rest; cbn [map String.concat String.append]; eauto.
    - destruct IH as (t & IH). exists t. cbn [app spaced]. rewrite !sapp_assoc. cbn [String.append]. cbn [String.append] in IH. rewrite <- IH.
      unfold toSVGPath, joinStr. cbn [map String.concat]. destruct (p ++ _) eqn:Ep; [destruct p; discriminate|]. reflexivity. }
  destruct Hj as (t & ->).
  destruct (compilePath_bad_count (F64_add_comm O) "" (spaced p) (map cmd_of p) "C" 6 "" [] (String "C" t) c) as (c' & H1 & H2 & _); try reflexivity.
  - apply spaced_spells, Hw.
  - apply closes_ok; [apply writable_plain, Hw|exact Hc].
  - exists [], ""%string. repeat split; reflexivity.
  - split; [reflexivity|discriminate].
  - exists c'. split; [exact H1|]. rewrite H2. unfold draws. rewrite Hx, Hy. apply run_ok, Hw.
Qed.
End Text.
Lemma cut_lossless z : lossless z = true -> cut z = z.
Proof. unfold cut. intros ->. reflexivity. Qed.
Lemma map_lossless p : forallb (all_op lossless) p = true -> map (map_op cut) p = p.
Proof.
  induction p as [|o p IH]; [reflexivity|]. cbn [forallb map]. intros H. apply andb_prop in H as [Ho Hp]. rewrite IH by exact Hp. f_equal.
  assert (P : forall a, all_pt lossless a = true -> map_pt cut a = a).
  { intros [x y] H. apply andb_prop in H as [H1 H2]. unfold map_pt. cbn [fst snd] in *. rewrite !cut_lossless by assumption. reflexivity. }
  destruct o; cbn [all_op map_op] in *; repeat match goal with H : _ && _ = true |- _ => apply andb_prop in H as [? ?] end; rewrite ?P by assumption; reflexivity.
Qed.
Theorem text_same O p (c : pcur (F64 O)) : pc_curX c = fnum (F64 O) 0 -> pc_curY c = fnum (F64 O) 0 -> writable p = true -> closes false p = true ->
  exists c', compilePath (toSVGPath (E := F64 O) p) c = (c', Ret tt) /\ (pc_path c' = p <-> forallb (all_op lossless) p = true).
Proof.
  intros Hx Hy Hw Hc. destruct (text_again O p c Hx Hy Hw Hc) as (c' & H1 & H2 & _). exists c'. split; [exact H1|]. rewrite H2. split; [|apply map_lossless].
  clear. induction p as [|o p IH]; [reflexivity|]. cbn [map forallb]. intros H. injection H as Ho Hp. rewrite IH by exact Hp. rewrite Bool.andb_true_r.
  assert (C : forall z, cut z = z -> lossless z = true).
  { intros z. unfold cut. destruct (lossless z) eqn:L; [reflexivity|]. intros H. assert (z = 0) by lia. subst z. discriminate L. }
  assert (P : forall a, map_pt cut a = a -> all_pt lossless a = true).
  { intros [x y] H. unfold map_pt in H. cbn [fst snd] in H. injection H as H1 H2. unfold all_pt. cbn [fst snd]. rewrite !C by assumption. reflexivity. }
  destruct o; cbn [map_op all_op] in *; try injection Ho; intros; rewrite ?P by assumption; reflexivity.
Qed.
Lemma eighths k : lossless (8 * k) = true.
Proof. unfold lossless. rewrite Z.abs_mul. replace (125 * (Z.abs 8 * Z.abs k)) with (125 * Z.abs k * 8) by lia. rewrite Z.mod_mul by lia. reflexivity. Qed.
Theorem text_refuted : exists p, writable p = true /\ closes false p = true
  /\ forall (O : Oracles) (c c' : pcur (F64 O)), pc_curX c = fnum (F64 O) 0 -> pc_curY c = fnum (F64 O) 0 ->
     compilePath (toSVGPath (E := F64 O) p) c = (c', Ret tt) -> pc_path c' <> p.
Proof.
  exists [OpMoveTo (5, 0)]. split; [reflexivity|]. split; [reflexivity|]. intros O c c' Hx Hy H Hp.
  destruct (text_same O [OpMoveTo (5, 0)] c Hx Hy eq_refl eq_refl) as (c2 & H1 & H2). rewrite H in H1. injection H1 as <-.
  apply H2 in Hp. vm_compute in Hp. discriminate.
Qed.

(** * ProofsRead: decimal numerals are read as the nearest binary64 number *)
From Coq Require Import ZArith NArith Lia Reals Lra Psatz Floats.SpecFloat.
From Flocq Require Import Core.Core IEEE754.BinarySingleNaN.
From Verif Require Import F64 RealEnv ProofsFlocq ProofsDec SpecRead.
Local Open Scope R_scope.
Local Notation pow := (bpow radix2).

(** ** Digits *)
Definition stops (s : string) : Prop := match s with String c _ => is_digit c = false | EmptyString => True end.
Lemma digit_val c : is_digit c = true -> (48 <= code c < 58)%N.
Proof. destruct c as [[] [] [] [] [] [] [] []]; intros H; try discriminate; vm_compute; split; congruence. Qed.
Lemma take_decimal s : forall acc k tail, digits s = true -> stops tail ->
  exists m, take_digits (s ++ tail) acc k = (m, (k + String.length s)%nat, tail) /\ Z.of_N m = decimal (Z.of_N acc) s.
Proof.
  induction s as [|c s IH]; intros acc k tail Hs Ht.
  - exists acc. cbn. rewrite Nat.add_0_r. split; [|reflexivity]. destruct tail as [|c r]; [reflexivity|]. cbn in Ht |- *. now rewrite Ht.
  - unfold digits in Hs. cbn in Hs. apply Bool.andb_true_iff in Hs as [Hc Hs]. cbn [String.append take_digits]. rewrite Hc.
    destruct (IH (acc * 10 + (code c - 48))%N (S k) tail Hs Ht) as (m & -> & Hm). exists m. split; [f_equal; f_equal; cbn [String.length]; lia|].
    rewrite Hm. cbn [decimal]. f_equal. pose proof (digit_val c Hc). unfold code in *. lia.
Qed.
Lemma decimal_app s t : forall acc, decimal acc (s ++ t) = decimal (decimal acc s) t.
Proof. induction s; intros; cbn; auto. Qed.
Lemma decimal_bound s : forall acc b, digits s = true -> (0 <= acc < b)%Z -> (0 <= decimal acc s < b * 10 ^ Z.of_nat (String.length s))%Z.
Proof.
  induction s as [|c s IH]; intros acc b Hs Ha; [cbn; lia|]. unfold digits in Hs. cbn in Hs. apply Bool.andb_true_iff in Hs as [Hc Hs]. cbn [decimal String.length].
  pose proof (digit_val c Hc). unfold code in *. specialize (IH (10 * acc + (Z.of_N (N_of_ascii c) - 48))%Z (10 * b)%Z Hs ltac:(lia)).
  rewrite Nat2Z.inj_succ, Z.pow_succ_r by lia. lia.
Qed.
Definition exp_text (x : option (bool * string)) : string := match x with None => ""%string | Some (neg, ds) => ("e" ++ (if (neg : bool) then "-" else "") ++ ds)%string end.
Definition exp_value (x : option (bool * string)) : Z := match x with Some (neg, ds) => (if neg : bool then -1 else 1) * decimal 0 ds | None => 0 end%Z.
Lemma decimal_ge s : forall a b, digits s = true -> (0 <= a <= b)%Z -> (a <= decimal b s)%Z.
Proof.
  induction s as [|c s IH]; intros a b Hs Hab; [cbn; lia|]. unfold digits in Hs. cbn in Hs. apply Bool.andb_true_iff in Hs as [Hc Hs]. cbn [decimal].
  apply IH; [exact Hs|]. pose proof (digit_val c Hc). unfold code in *. lia.
Qed.
Lemma take_exp_digits s : forall acc k tail, digits s = true -> stops tail ->
  exists m, take_exp (s ++ tail) acc k = (m, (k + String.length s)%nat, tail) /\ ((decimal (Z.of_N acc) s < 10000)%Z -> Z.of_N m = decimal (Z.of_N acc) s) /\ ((10000 <= decimal (Z.of_N acc) s)%Z -> (10000 <= m)%N).
Proof.
  induction s as [|c s IH]; intros acc k tail Hs Ht.
  - exists acc. cbn [String.append String.length decimal]. rewrite Nat.add_0_r. split; [|split; [reflexivity|lia]]. destruct tail as [|c r]; [reflexivity|]. cbn in Ht |- *. now rewrite Ht.
  - unfold digits in Hs. cbn in Hs. apply Bool.andb_true_iff in Hs as [Hc Hs]. cbn [String.append take_exp]. rewrite Hc.
    set (acc' := (if (acc <? 10000)%N then _ else acc)).
    destruct (IH acc' (S k) tail Hs Ht) as (m & -> & Hm & Hb). exists m. split; [f_equal; f_equal; cbn [String.length]; lia|]. cbn [decimal].
    pose proof (digit_val c Hc) as Hd. unfold acc' in *. clear acc'. destruct (N.ltb_spec acc 10000) as [Ha|Ha].
    + replace (Z.of_N (acc * 10 + (code c - 48))) with (10 * Z.of_N acc + (Z.of_N (N_of_ascii c) - 48))%Z in * by (unfold code in *; lia). auto.
    + pose proof (decimal_ge s 10000 (10 * Z.of_N acc + (Z.of_N (N_of_ascii c) - 48)) Hs)%Z as L1. pose proof (decimal_ge s 10000 (Z.of_N acc) Hs ltac:(lia))%Z as L2. unfold code in *.
      split; intros K; [exfalso; lia|auto].
Qed.
Lemma exp_read x : match x with None => true | Some (_, ds) => digits ds && nonempty ds end = true ->
  exists e, parse_exp (exp_text x) = Some e /\ match x with None => true | Some (_, ds) => (decimal 0 ds <? 10000)%Z end = (Z.abs e <? 10000)%Z
    /\ ((Z.abs e < 10000)%Z -> e = exp_value x).
Proof.
  destruct x as [[neg ds]|]; [|exists 0%Z; repeat split; reflexivity]. intros H. apply andb_prop in H as [H1 H2].
  destruct (take_exp_digits ds 0 0 ""%string H1 I) as (m & Ht & Hm & Hb). rewrite ProofsStr.sapp_nil_r in Ht. cbn [Z.of_N] in Hm, Hb.
  exists (if neg then - Z.of_N m else Z.of_N m)%Z. split.
  - destruct ds as [|c r]; [discriminate|]. cbn [exp_text String.append parse_exp]. cbn [Ascii.eqb Bool.eqb orb]. unfold parse_expval.
    destruct neg.
    + change (("-" ++ String c r)%string) with (String "-" (String c r)). cbv beta iota. rewrite Ht. reflexivity.
    + cbn [String.append]. assert (Hd : match String c r with String "-"%char r' => (true, r') | String "+"%char r' => (false, r') | _ => (false, String c r) end = (false, String c r)).
      { clear - H1. unfold digits in H1. cbn in H1. apply andb_prop in H1 as [Hc _]. destruct c as [[] [] [] [] [] [] [] []]; try reflexivity; discriminate. }
      rewrite Hd, Ht. reflexivity.
  - replace (Z.abs (if neg then - Z.of_N m else Z.of_N m)) with (Z.of_N m) by (destruct neg; lia). unfold exp_value.
    destruct (Z.ltb_spec (decimal 0 ds) 10000) as [K|K].
    + specialize (Hm K). split; [symmetry; apply Z.ltb_lt; lia|]. intros _. rewrite Hm. destruct neg; lia.
    + specialize (Hb K). split; [symmetry; apply Z.ltb_ge; lia|]. intros Hlt. lia.
Qed.
Lemma exp_stops x : stops (exp_text x). Proof. destruct x as [[[] ds]|]; reflexivity || exact I. Qed.
(** ** Scanning *)
Definition parts (body : string) : N * nat * nat * string :=
  let '(ip, k1, r) := take_digits body 0%N 0 in
  let '(m, k2, r) := match r with String "."%char r' => take_digits r' ip 0 | _ => (ip, O, r) end in (m, k1, k2, r).
Lemma exp_no_point x ip : match exp_text x with String "."%char r' => take_digits r' ip 0 | _ => (ip, O, exp_text x) end = (ip, O, exp_text x).
Proof. destruct x as [[[] ds]|]; reflexivity. Qed.
Definition frac_len (n : numeral) : nat := match n_frac n with Some f => String.length f | None => 0 end.
Lemma scan n : legal_numeral n = true -> exists m, parts (unsigned_text n) = (m, String.length (n_int n), frac_len n, exp_text (n_exp n))
  /\ Z.of_N m = decimal 0 (n_int n ++ match n_frac n with Some f => f | None => "" end) /\ (Z.of_N m < 10 ^ Z.of_nat (String.length (n_int n) + frac_len n))%Z
  /\ (String.length (n_int n) + frac_len n <> 0)%nat
  /\ exists e, parse_exp (exp_text (n_exp n)) = Some e /\ short_exp n = (Z.abs e <? 10000)%Z /\ ((Z.abs e < 10000)%Z -> e = exp_value (n_exp n)).
Proof.
  unfold legal_numeral. intros H. apply andb_prop in H as [H H3]. apply andb_prop in H as [H1 H2]. apply exp_read in H3.
  unfold unsigned_text, parts, frac_len. change (match n_exp n with None => ""%string | Some (neg, ds) => ("e" ++ (if neg then "-" else "") ++ ds)%string end) with (exp_text (n_exp n)).
  destruct (n_frac n) as [f|] eqn:Ef.
  - apply andb_prop in H2 as [Hf Hne].
    change (n_int n ++ ("." ++ f) ++ exp_text (n_exp n))%string with (n_int n ++ String "." (f ++ exp_text (n_exp n)))%string.
    destruct (take_decimal (n_int n) 0 0 (String "." (f ++ exp_text (n_exp n))) H1 eq_refl) as (ip & -> & Hip). cbn [Z.of_N] in Hip.
    cbv beta iota. destruct (take_decimal f ip 0 (exp_text (n_exp n)) Hf (exp_stops _)) as (m & -> & Hm). exists m. cbn [Nat.add]. split; [reflexivity|].
    rewrite decimal_app, Hm, Hip. split; [reflexivity|]. split; [|split; [|exact H3]].
    + pose proof (decimal_bound (n_int n) 0 1 H1 ltac:(lia)) as B1. pose proof (decimal_bound f _ _ Hf B1) as B2. rewrite Nat2Z.inj_add, Z.pow_add_r by lia. lia.
    + destruct (n_int n), f; cbn in *; try discriminate; lia.
  - change ("" ++ exp_text (n_exp n))%string with (exp_text (n_exp n)).
    destruct (take_decimal (n_int n) 0 0 (exp_text (n_exp n)) H1 (exp_stops _)) as (ip & -> & Hip). cbn [Z.of_N] in Hip. rewrite exp_no_point. cbn [Nat.add]. exists ip. split; [reflexivity|].
    rewrite ProofsStr.sapp_nil_r. split; [exact Hip|]. rewrite Nat.add_0_r. split; [|split; [destruct (n_int n); [discriminate|cbn; lia]|exact H3]].
    pose proof (decimal_bound (n_int n) 0 1 H1 ltac:(lia)) as B1. lia.
Qed.
Lemma text_head n : legal_numeral n = true -> exists c r, unsigned_text n = String c r /\ (is_digit c = true \/ c = "."%char).
Proof.
  unfold legal_numeral. intros H. apply andb_prop in H as [H _]. apply andb_prop in H as [H1 H2]. unfold unsigned_text. destruct (n_int n) as [|c r].
  - destruct (n_frac n) as [f|]; [|discriminate]. do 2 eexists. split; [reflexivity|now right].
  - do 2 eexists. split; [reflexivity|left]. unfold digits in H1. cbn in H1. now apply andb_prop in H1.
Qed.
Lemma numeral_chars n : legal_numeral n = true -> all_chars num_char (unsigned_text n) = true.
Proof.
  unfold legal_numeral, unsigned_text. intros H. apply andb_prop in H as [H H3]. apply andb_prop in H as [H1 H2].
  rewrite !ProofsStr.all_chars_app, (digits_num _ H1). cbn [andb]. apply andb_true_intro. split.
  - destruct (n_frac n) as [f|]; [|reflexivity]. apply andb_prop in H2 as [H2 _]. cbn [String.append all_chars]. now rewrite (digits_num _ H2).
  - destruct (n_exp n) as [[neg ds]|]; [|reflexivity]. apply andb_prop in H3 as [H3 _]. destruct neg; cbn [String.append all_chars]; now rewrite (digits_num _ H3).
Qed.
Lemma parse_scan (neg : bool) (n : numeral) : legal_numeral n = true ->
  sf_parse ((if neg then "-" else "") ++ unsigned_text n)%string
  = match parse_exp (exp_text (n_exp n)) with None => None | Some e =>
      no_inf (sf_dec neg (fst (fst (fst (parts (unsigned_text n))))) (clip_exp (String.length (n_int n)) (frac_len n) e - Z.of_nat (frac_len n))) end.
Proof.
  intros Hn. destruct (scan n Hn) as (m & Hp & _ & _ & Hk & e & He & _). rewrite Hp. cbn [fst]. destruct (text_head n Hn) as (c & r & Hh & Hc).
  pose proof (numeral_chars n Hn) as Hall. rewrite Hh in *. rewrite (reads_decimal neg c r Hall Hc). unfold sf_decimal, parts in *. clear Hh.
  destruct (take_digits (String c r) 0 0) as [[ip k1] r1]. destruct (match r1 with EmptyString => _ | String _ _ => _ end) as [[m0 k2] r2]. injection Hp as -> -> -> ->.
  destruct (String.length (n_int n) + frac_len n)%nat; [lia|]. reflexivity.
Qed.
(** ** Rounding *)
Definition sgnR (neg : bool) : R := if neg then -1 else 1.
Lemma pow10_val k : (0 < k)%Z -> IZR (Zpos (pow10 k)) = powerRZ 10 k.
Proof.
  intros Hk. unfold pow10. rewrite Pos2Z.inj_pow. destruct k as [|p|p]; try lia. cbn [Z.to_pos powerRZ]. rewrite <- (positive_nat_Z p) at 1. rewrite pow_IZR. reflexivity.
Qed.
Lemma dec_round neg m k : let z := sgnR neg * IZR (Z.of_N m) * powerRZ 10 k in Rabs (rnd z) < pow 1024 -> finite (sf_dec neg m k) /\ val (sf_dec neg m k) = rnd z.
Proof.
  intros z Hz. unfold sf_dec. destruct (Z.eqb_spec k 0) as [->|Hk]; [|destruct (Z.ltb_spec 0 k)].
  - assert (Ez : ratR neg m 1 = z) by (unfold ratR, z, sgnR; cbn; field). rewrite <- Ez in *. now apply rat_round.
  - assert (Ez : ratR neg (m * N.pos (pow10 k)) 1 = z). { unfold ratR, z, sgnR. rewrite N2Z.inj_mul, mult_IZR, <- (pow10_val k) by lia. cbn [Z.of_N]. field. }
    rewrite <- Ez in *. now apply rat_round.
  - assert (Ez : ratR neg m (pow10 (- k)) = z).
    { unfold ratR, z, sgnR. rewrite (pow10_val (- k)) by lia. rewrite powerRZ_neg'. unfold Rdiv. rewrite Rinv_inv. ring. }
    rewrite <- Ez in *. now apply rat_round.
Qed.
Lemma ten_big : (2 ^ 1100 <= 10 ^ 2000)%Z. Proof. apply Z.leb_le. vm_compute. reflexivity. Qed.
Lemma ten_R k : (0 <= k)%Z -> powerRZ 10 k = IZR (10 ^ k).
Proof. intros Hk. destruct k as [|p|p]; [reflexivity| |lia]. cbn [powerRZ]. rewrite pow_IZR, positive_nat_Z. reflexivity. Qed.
Lemma ten_mono a b : (a <= b)%Z -> powerRZ 10 a <= powerRZ 10 b.
Proof. intros H. replace b with (a + (b - a))%Z by lia. rewrite powerRZ_add by lra. rewrite (ten_R (b - a)) by lia. assert (1 <= IZR (10 ^ (b - a))) by (apply IZR_le; pose proof (Z.pow_pos_nonneg 10 (b - a)); lia). pose proof (powerRZ_lt 10 a ltac:(lra)). nra. Qed.
Lemma ten_2000 : pow 1100 <= powerRZ 10 2000.
Proof. rewrite ten_R by lia. change (pow 1100) with (IZR (2 ^ 1100)). apply IZR_le, ten_big. Qed.
Lemma tiny z : Rabs z <= powerRZ 10 (-2000) -> rnd z = 0.
Proof.
  intros H. destruct (Req_dec z 0) as [->|Hz]; [apply round_0, valid_rnd_N|]. assert (Hs : Rabs z <= pow (-1100)).
  { apply Rle_trans with (1 := H). change (-2000)%Z with (- (2000))%Z. change (-1100)%Z with (- (1100))%Z. rewrite powerRZ_neg', bpow_opp. apply Rinv_le; [apply bpow_gt_0|apply ten_2000]. }
  unfold rnd. cbn [round_mode]. apply round_N_small with (mag radix2 z).
  - split; [now apply bpow_mag_le|apply bpow_mag_gt].
  - assert (mag radix2 z <= -1099)%Z by (apply mag_le_bpow; [exact Hz|]; apply Rle_lt_trans with (1 := Hs); apply bpow_lt; lia).
    unfold fexp64, SpecFloat.fexp, emin. lia.
Qed.
Lemma clip_same neg m k1 k2 e : (Z.of_N m < 10 ^ Z.of_nat (k1 + k2))%Z -> Rabs (sgnR neg * IZR (Z.of_N m) * powerRZ 10 (e - Z.of_nat k2)) <= pow 900 ->
  rnd (sgnR neg * IZR (Z.of_N m) * powerRZ 10 (clip_exp k1 k2 e - Z.of_nat k2)) = rnd (sgnR neg * IZR (Z.of_N m) * powerRZ 10 (e - Z.of_nat k2)).
Proof.
  intros Hm Hz. assert (Ha : forall q, Rabs (sgnR neg * IZR (Z.of_N m) * powerRZ 10 q) = IZR (Z.of_N m) * powerRZ 10 q).
  { intros q. rewrite !Rabs_mult. rewrite (Rabs_pos_eq (IZR (Z.of_N m))) by (apply IZR_le; lia). rewrite (Rabs_pos_eq (powerRZ 10 q)) by (apply Rlt_le, powerRZ_lt; lra).
    unfold sgnR. destruct neg; [rewrite Rabs_left by lra|rewrite Rabs_R1]; ring. }
  rewrite Ha in Hz. destruct (Z.eq_dec (Z.of_N m) 0) as [E0|Hm0]; [rewrite E0, !Rmult_0_r, !Rmult_0_l; reflexivity|].
  assert (H1 : 1 <= IZR (Z.of_N m)) by (apply IZR_le; lia).
  unfold clip_exp. destruct (Z_le_gt_dec e (2000 + Z.of_nat k2)) as [Le|Gt].
  - rewrite (Z.min_r _ e) by lia. destruct (Z_le_gt_dec (-2000 - Z.of_nat (k1 + k2)) e) as [Le2|Lt]; [rewrite Z.max_r by lia; reflexivity|].
    rewrite Z.max_l by lia.
    assert (T : forall q, (q <= -2000 - Z.of_nat (k1 + k2))%Z -> rnd (sgnR neg * IZR (Z.of_N m) * powerRZ 10 (q - Z.of_nat k2)) = 0).
    { intros q Hq. apply tiny. rewrite Ha. apply Rle_trans with (powerRZ 10 (Z.of_nat (k1 + k2)) * powerRZ 10 (-2000 - Z.of_nat (k1 + k2))).
      - apply Rmult_le_compat; [lra|apply Rlt_le, powerRZ_lt; lra|rewrite ten_R by lia; apply IZR_le; lia|apply ten_mono; lia].
      - rewrite <- powerRZ_add by lra. apply ten_mono. lia. }
    rewrite !T by lia. reflexivity.
  - exfalso. assert (powerRZ 10 2000 <= powerRZ 10 (e - Z.of_nat k2)) by (apply ten_mono; lia). pose proof ten_2000. assert (pow 900 < pow 1100) by (apply bpow_lt; lia).
    assert (1 * powerRZ 10 (e - Z.of_nat k2) <= IZR (Z.of_N m) * powerRZ 10 (e - Z.of_nat k2)) by (apply Rmult_le_compat_r; [apply Rlt_le, powerRZ_lt; lra|exact H1]). lra.
Qed.
Theorem read_nearest O n : legal_numeral n = true -> short_exp n = true -> Rabs (num_exact n) <= pow 900 -> exists x, num_value (F64 O) n = Some x /\ valid x /\ finite x /\ val x = rnd (num_exact n).
Proof.
  intros Hn Hsh Hb. destruct (scan n Hn) as (m & Hp & Hm & Hlt & _ & e & He & He1 & He2). rewrite Hsh in He1. symmetry in He1. apply Z.ltb_lt in He1. rewrite (He2 He1) in He. clear e He1 He2. set (neg := match n_sign n with Minus => true | _ => false end).
  assert (Ex : num_exact n = sgnR neg * IZR (Z.of_N m) * powerRZ 10 (exp_value (n_exp n) - Z.of_nat (frac_len n))).
  { unfold num_exact. rewrite <- Hm. f_equal; [unfold sgnR, neg; destruct (n_sign n); reflexivity|]. f_equal. unfold exp_value, frac_len. destruct (n_frac n); reflexivity. }
  rewrite Ex in *. set (k := (clip_exp (String.length (n_int n)) (frac_len n) (exp_value (n_exp n)) - Z.of_nat (frac_len n))%Z).
  pose proof (clip_same neg m _ _ _ Hlt Hb) as Hc. fold k in Hc.
  assert (Hr : Rabs (rnd (sgnR neg * IZR (Z.of_N m) * powerRZ 10 k)) < pow 1024).
  { rewrite Hc. apply Rle_lt_trans with (pow 900); [|apply bpow_lt; lia]. apply abs_round_le_generic; [apply fexp_correct; reflexivity|apply valid_rnd_N| |exact Hb].
    replace (pow 900) with (IZR 1 * pow 900) by (cbn [IZR IPR]; ring). apply dyadic_format; lia. }
  destruct (dec_round neg m k Hr) as [Hf Hv]. assert (V : valid (sf_dec neg m k)).
  { unfold sf_dec. destruct (k =? 0)%Z; [|destruct (0 <? k)%Z]; apply rat_valid. }
  exists (sf_dec neg m k). split; [|split; [exact V|split; [exact Hf|rewrite Hv; exact Hc]]].
  unfold num_value. cbn [parseFloat F64 fmul flit]. replace (match n_sign n with Minus => "-" | _ => "" end)%string with (if neg then "-" else "")%string by (unfold neg; destruct (n_sign n); reflexivity).
  rewrite parse_scan by exact Hn. rewrite He, Hp. cbn [fst]. fold k.
  pose proof (mul_one _ V Hf) as M1. destruct (sf_dec neg m k); try contradiction; exact (f_equal Some M1).
Qed.

(** ** Long exponents *)
Fixpoint zeros (k : nat) (s : string) : string := match k with O => s | S k => String "0" (zeros k s) end.
Lemma zeros_digits k : digits (zeros k "1") = true.
Proof. unfold digits. induction k as [|k IH]; [reflexivity|]. cbn [zeros all_chars]. now rewrite IH. Qed.
Lemma zeros_value k : decimal 0 (zeros k "1") = 1%Z.
Proof. induction k as [|k IH]; [reflexivity|exact IH]. Qed.
Lemma zeros_len k : String.length (zeros k "1") = S k.
Proof. induction k as [|k IH]; [reflexivity|]. cbn [zeros String.length]. now rewrite IH. Qed.
Lemma long_exponent (O : Oracles) : exists n, legal_numeral n = true /\ num_exact n = 1 /\ exists x, num_value (F64 O) n = Some x /\ val x = 0.
Proof.
  pose (k := Z.to_nat 99999). assert (Hk : Z.of_nat (S k) = 100000%Z) by (rewrite Nat2Z.inj_succ; unfold k; rewrite Z2Nat.id by lia; reflexivity).
  set (n := mkNum NoSign "" (Some (zeros k "1")) (Some (false, "100000"%string))). exists n. clearbody k.
  assert (Hn : legal_numeral n = true).
  { unfold legal_numeral, n. cbn [n_int n_frac n_exp]. rewrite zeros_digits. destruct k; reflexivity. }
  split; [exact Hn|]. split.
  { unfold num_exact, n. cbn [n_sign n_int n_frac n_exp]. change ("" ++ zeros k "1")%string with (zeros k "1"). rewrite zeros_value, zeros_len, Hk. cbn. lra. }
  destruct (scan n Hn) as (m & Hp & Hm & _ & _ & e & He & _). assert (Ee : e = 10000%Z) by (cbn in He; congruence). subst e.
  unfold n in Hm at 1 2. cbn [n_int n_frac] in Hm. change ("" ++ zeros k "1")%string with (zeros k "1") in Hm. rewrite zeros_value in Hm.
  assert (Hl : frac_len n = S k) by (unfold n, frac_len; cbn [n_frac]; apply zeros_len).
  set (x := sf_dec false m (-90000)). assert (T : rnd (sgnR false * IZR (Z.of_N m) * powerRZ 10 (-90000)) = 0).
  { apply tiny. rewrite Hm. unfold sgnR. rewrite !Rmult_1_l, Rabs_pos_eq by (apply Rlt_le, powerRZ_lt; lra). apply ten_mono. lia. }
  destruct (dec_round false m (-90000)) as [Hf Hv]; [rewrite T, Rabs_R0; apply bpow_gt_0|]. rewrite T in Hv. fold x in Hf, Hv.
  assert (V : valid x) by (unfold x, sf_dec; destruct (_ =? 0)%Z; [|destruct (0 <? _)%Z]; apply rat_valid).
  exists x. split; [|exact Hv]. unfold num_value. cbn [parseFloat F64 fmul flit]. change (match n_sign n with Minus => "-" | _ => "" end)%string with (if false then "-" else "")%string.
  rewrite parse_scan by exact Hn. rewrite He, Hp. cbn [fst]. rewrite Hl. change (n_int n) with ""%string. cbn [String.length Nat.add].
  replace (clip_exp 0 (S k) 10000 - Z.of_nat (S k))%Z with (-90000)%Z by (unfold clip_exp; cbn [Nat.add]; rewrite Hk; reflexivity). fold x.
  pose proof (mul_one _ V Hf) as M1. destruct x; try contradiction; exact (f_equal Some M1).
Qed.

(** ** An exact reader *)
Definition exact_parse (s : string) : option R :=
  let '(neg, body) := match s with String "-"%char r => (true, r) | _ => (false, s) end in
  let '(m, k1, k2, r) := parts body in
  match parse_exp r with Some e => if (Z.abs e <? 10000)%Z then Some (sgnR neg * IZR (Z.of_N m) * powerRZ 10 (e - Z.of_nat k2)) else None | None => None end.
Lemma exact_reads Q : (forall s, r_parse Q s = exact_parse s) -> reads_exactly Q.
Proof.
  intros HQ n Hn. rewrite HQ. destruct (scan n Hn) as (m & Hp & Hm & _ & _ & e & He & Hs1 & Hs2). destruct (text_head n Hn) as (c & r & Hh & Hc).
  assert (Hs : match (match n_sign n with Minus => "-" | _ => "" end ++ unsigned_text n)%string with String "-"%char r => (true, r) | _ => (false, (match n_sign n with Minus => "-" | _ => "" end ++ unsigned_text n)%string) end
    = (match n_sign n with Minus => true | _ => false end, unsigned_text n)).
  { destruct (n_sign n); cbn [String.append]; try reflexivity; rewrite Hh; (destruct Hc as [Hc| ->]; [|reflexivity]); clear - Hc; destruct c as [[] [] [] [] [] [] [] []]; try reflexivity; discriminate. }
  unfold exact_parse. rewrite Hs, Hp, He, Hs1. destruct (Z.ltb_spec (Z.abs e) 10000) as [K|K]; [|reflexivity]. rewrite (Hs2 K). f_equal. unfold num_exact. rewrite <- Hm. f_equal; [unfold sgnR; destruct (n_sign n); reflexivity|]. f_equal. unfold exp_value, frac_len. destruct (n_frac n); reflexivity.
Qed.

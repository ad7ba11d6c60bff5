(** * ProofsDec: decimal numbers in the binary64 instance: parsing and printing *)
From Coq Require Import ZArith Lia Reals Lra Floats.SpecFloat.
From Flocq Require Import Core.Core IEEE754.BinarySingleNaN.
From Verif Require Import F64 SpecPath ProofsStr ProofsFlocq.
Local Open Scope R_scope.
Local Instance Hprec : FLX.Prec_gt_0 53 := eq_refl _.
Local Instance Hmax : Prec_lt_emax 53 1024 := eq_refl _.

(** ** quotients of integers are correctly rounded *)
Lemma div_free sx mx ex sy my ey :
  let x := F2R (Float radix2 (cond_Zopp sx (Zpos mx)) ex) in
  let y := F2R (Float radix2 (cond_Zopp sy (Zpos my)) ey) in
  let z := SFdiv 53 1024 (S754_finite sx mx ex) (S754_finite sy my ey) in
  valid z /\ (Rabs (rnd (x / y)) < bpow radix2 1024 -> finite z /\ val z = rnd (x / y)).
Proof.
  intros x y z. pose proof (Bdiv_correct_aux 53 1024 Hprec Hmax mode_NE sx mx ex sy my ey) as H. cbv zeta in H. fold x y in H.
  assert (Ez : z = let '(mz, ez, lz) := SFdiv_core_binary 53 1024 (Zpos mx) ex (Zpos my) ey in binary_round_aux 53 1024 mode_NE (xorb sx sy) mz ez lz).
  { unfold z, SFdiv. destruct (SFdiv_core_binary _ _ _ _ _ _) as [[mz ez] lz]. apply bra_equiv. }
  rewrite <- Ez in H. destruct H as [Hv H]. split; [exact Hv|]. intros Hlt. cbn [round_mode] in H. rewrite Rlt_bool_true in H by exact Hlt.
  destruct H as (H1 & H2 & _). split; [|exact H1]. destruct z; try exact I; discriminate.
Qed.
Lemma rat_valid neg n d : valid (sf_rat neg n d).
Proof. destruct n; [destruct neg; reflexivity|]. apply (div_free neg p 0 false d 0). Qed.
Definition ratR (neg : bool) (n : N) (d : positive) : R := (if neg then -1 else 1) * (IZR (Z.of_N n) / IZR (Zpos d)).
Lemma rat_round neg n d : Rabs (rnd (ratR neg n d)) < bpow radix2 1024 -> finite (sf_rat neg n d) /\ val (sf_rat neg n d) = rnd (ratR neg n d).
Proof.
  intros H. destruct n as [|p].
  - assert (E0 : ratR neg 0 d = 0) by (unfold ratR, Rdiv; cbn [Z.of_N]; rewrite Rmult_0_l, Rmult_0_r; reflexivity).
    rewrite E0, round_0 by apply valid_rnd_N. split; [exact I|reflexivity].
  - pose proof (div_free neg p 0 false d 0) as [_ K]. cbv zeta in K.
    assert (Eq : F2R (Float radix2 (cond_Zopp neg (Zpos p)) 0) / F2R (Float radix2 (cond_Zopp false (Zpos d)) 0) = ratR neg (Npos p) d).
    { unfold F2R, ratR. cbn [Fnum Fexp bpow cond_Zopp Z.of_N]. rewrite !Rmult_1_r. destruct neg; cbn [cond_Zopp].
      - rewrite opp_IZR. unfold Rdiv. ring.
      - ring. }
    rewrite Eq in K. apply K, H.
Qed.
Lemma no_inf_valid x y : valid x -> no_inf x = Some y -> valid y.
Proof. destruct x; cbn [no_inf]; try discriminate; intros H [= <-]; exact H. Qed.
Lemma bin_valid neg m e : valid (sf_bin neg m e).
Proof.
  destruct m as [|p]; [destruct neg; reflexivity|]. unfold sf_bin, prec64, emax64. rewrite br_equiv.
  exact (proj1 (binary_round_correct 53 1024 Hprec Hmax mode_NE neg p e)).
Qed.
Lemma decimal_valid neg s x : sf_decimal neg s = Some x -> valid x.
Proof.
  unfold sf_decimal.
  destruct (take_digits s 0%N 0) as [[ip k1] r]. destruct (match r with EmptyString => _ | String _ _ => _ end) as [[m k2] r'].
  destruct (k1 + k2)%nat; [discriminate|]. destruct (parse_exp r'); [|discriminate]. apply no_inf_valid. unfold sf_dec.
  destruct (_ =? 0)%Z; [apply rat_valid|]. destruct (0 <? _)%Z; apply rat_valid.
Qed.
Lemma hex_valid neg s x : sf_hex neg s = Some x -> valid x.
Proof.
  unfold sf_hex.
  destruct (take_hex s 0%N 0) as [[ip k1] r]. destruct (match r with EmptyString => _ | String _ _ => _ end) as [[m k2] r'].
  destruct (k1 + k2)%nat; [discriminate|]. destruct r' as [|c r']; [discriminate|]. destruct (_ || _); [|discriminate].
  destruct (parse_expval r'); [|discriminate]. apply no_inf_valid, bin_valid.
Qed.
Lemma plain_valid s x : sf_plain s = Some x -> valid x.
Proof.
  unfold sf_plain. destruct (match s with EmptyString => _ | String _ _ => _ end) as [neg body]. cbv zeta.
  destruct (_ || _); [intros [= <-]; reflexivity|]. destruct (String.eqb _ _); [intros [= <-]; reflexivity|].
  destruct (hasPrefix _ _); [|apply decimal_valid]. destruct body as [|? [|? r]]; try discriminate. apply hex_valid.
Qed.
Lemma parse_valid s x : sf_parse s = Some x -> valid x.
Proof. unfold sf_parse. destruct (String.eqb _ _); [apply plain_valid|]. destruct (underscoreOK s); [apply plain_valid|discriminate]. Qed.

(** ** decimal digits *)
Local Open Scope N_scope.
Lemma digit_code x : x < 10 -> code (byte (48 + x)) = 48 + x /\ is_digit (byte (48 + x)) = true.
Proof.
  intros H. assert (K : x = 0 \/ x = 1 \/ x = 2 \/ x = 3 \/ x = 4 \/ x = 5 \/ x = 6 \/ x = 7 \/ x = 8 \/ x = 9) by lia.
  repeat destruct K as [->|K]; try (split; reflexivity). subst. split; reflexivity.
Qed.
Lemma take_digit x r acc k : x < 10 -> take_digits (String (byte (48 + x)) r) acc k = take_digits r (acc * 10 + x) (S k).
Proof. intros H. destruct (digit_code x H) as [H1 H2]. cbn [take_digits]. rewrite H2, H1. f_equal. lia. Qed.
Lemma dec_take f : forall n tail, n < 2 ^ N.of_nat f -> exists d, (1 <= d)%nat /\ forall k, take_digits (dec_str_fuel (S f) n tail) 0 k = take_digits tail n (k + d).
Proof.
  induction f as [|f IH]; intros n tail Hn.
  - assert (n = 0) by (cbn in Hn; lia). subst. exists 1%nat. split; [lia|]. intros k. cbn [dec_str_fuel N.ltb N.modulo].
    change (0 <? 10) with true. cbv iota. rewrite take_digit by reflexivity. f_equal. lia.
  - cbn [dec_str_fuel]. destruct (N.ltb_spec n 10) as [L|L].
    + exists 1%nat. split; [lia|]. intros k. rewrite N.mod_small by exact L. rewrite take_digit by exact L. rewrite N.mul_0_l, N.add_0_l, Nat.add_comm. reflexivity.
    + assert (Hd : n / 10 < 2 ^ N.of_nat f).
      { apply N.div_lt_upper_bound; [lia|]. rewrite Nat2N.inj_succ, N.pow_succ_r' in Hn. nia. }
      destruct (IH (n / 10) (String (byte (48 + n mod 10)) tail) Hd) as (d & Hd1 & Hd2).
      exists (S d). split; [lia|]. intros k. etransitivity; [exact (Hd2 k)|]. rewrite take_digit by (apply N.mod_lt; lia).
      rewrite (N.div_mod n 10) at 3 by lia. f_equal; lia.
Qed.
Lemma dec_str_take n tail : exists d, (1 <= d)%nat /\ forall k, take_digits (dec_str n ++ tail) 0 k = take_digits tail n (k + d).
Proof.
  assert (A : forall f n acc, (dec_str_fuel f n acc ++ tail)%string = dec_str_fuel f n (acc ++ tail)).
  { induction f as [|f IH]; intros m acc; cbn [dec_str_fuel]; [reflexivity|]. destruct (m <? 10); [reflexivity|]. rewrite IH. reflexivity. }
  unfold dec_str. rewrite A. cbn [String.append].
  assert (Hn : n < 2 ^ N.of_nat (S (N.to_nat (N.log2 n)))).
  { rewrite Nat2N.inj_succ, N2Nat.id. destruct n; [cbn; lia|]. apply N.log2_spec. lia. }
  remember (N.to_nat (N.log2 n)) as f eqn:Ef. clear Ef.
    (* one unfolding, the rest from [dec_take] *)
    cbn [dec_str_fuel]. destruct (N.ltb_spec n 10) as [L|L].
    + exists 1%nat. split; [lia|]. intros k. rewrite N.mod_small by exact L. rewrite take_digit by exact L. rewrite N.mul_0_l, N.add_0_l, Nat.add_comm. reflexivity.
    + destruct f as [|f]. { cbn in Hn. lia. }
      assert (Hd : n / 10 < 2 ^ N.of_nat f).
      { apply N.div_lt_upper_bound; [lia|]. rewrite !Nat2N.inj_succ, !N.pow_succ_r' in Hn. nia. }
      destruct (dec_take f (n / 10) (String (byte (48 + n mod 10)) tail) Hd) as (d & Hd1 & Hd2).
      exists (S d). split; [lia|]. intros k. etransitivity; [exact (Hd2 k)|]. rewrite take_digit by (apply N.mod_lt; lia).
      rewrite (N.div_mod n 10) at 3 by lia. f_equal; lia.
Qed.
Lemma dec_str_digits n : digits (dec_str n) = true /\ nonempty (dec_str n) = true.
Proof.
  assert (A : forall f n acc, digits acc = true -> digits (dec_str_fuel f n acc) = true /\ (nonempty acc = true -> nonempty (dec_str_fuel f n acc) = true)).
  { induction f as [|f IH]; intros m acc H; cbn [dec_str_fuel]; [auto|].
    assert (H' : digits (String (byte (48 + m mod 10)) acc) = true).
    { unfold digits in *. cbn [all_chars]. rewrite (proj2 (digit_code (m mod 10) (N.mod_lt m 10 ltac:(lia)))), H. reflexivity. }
    destruct (m <? 10); [split; [exact H'|reflexivity]|]. destruct (IH (m / 10) _ H') as [I1 I2]. split; [exact I1|]. intros _. apply I2. reflexivity. }
  unfold dec_str. cbn [dec_str_fuel]. 
  assert (H' : digits (String (byte (48 + n mod 10)) "") = true).
  { unfold digits in *. cbn [all_chars]. rewrite (proj2 (digit_code (n mod 10) (N.mod_lt n 10 ltac:(lia)))). reflexivity. }
  destruct (n <? 10); [split; [exact H'|reflexivity]|]. destruct (A (N.to_nat (N.log2 n)) (n / 10) _ H') as [I1 I2]. split; [exact I1|apply I2; reflexivity].
Qed.
Lemma pad3_digits m : m < 1000 -> digits (pad3 m) = true.
Proof.
  intros H. unfold pad3, digits. cbn [all_chars]. rewrite (proj2 (digit_code (m / 100) ltac:(apply N.div_lt_upper_bound; lia))).
  rewrite (proj2 (digit_code ((m / 10) mod 10) (N.mod_lt _ 10 ltac:(lia)))), (proj2 (digit_code (m mod 10) (N.mod_lt _ 10 ltac:(lia)))). reflexivity.
Qed.
Lemma pad3_take m acc k : m < 1000 -> take_digits (pad3 m) acc k = (acc * 1000 + m, (k + 3)%nat, EmptyString).
Proof.
  intros H. unfold pad3. rewrite !take_digit by (first [apply N.div_lt_upper_bound; lia|apply N.mod_lt; lia]). cbn [take_digits].
  replace (k + 3)%nat with (S (S (S k))) by lia. f_equal. f_equal.
  pose proof (N.div_mod m 10 ltac:(lia)). pose proof (N.div_mod (m / 10) 10 ltac:(lia)) as H1. rewrite N.div_div in H1 by lia. change (10 * 10) with 100 in H1. lia.
Qed.

(** ** three decimals *)
Definition num3 (neg : bool) (n : N) : numeral :=
  mkNum (if neg then Minus else NoSign) (dec_str (n / 1000)) (Some (pad3 (n mod 1000))) None.
Lemma num3_legal neg n : legal_numeral (num3 neg n) = true.
Proof.
  unfold legal_numeral, num3. cbn [n_int n_frac n_exp]. destruct (dec_str_digits (n / 1000)) as [-> ->].
  rewrite pad3_digits by (apply N.mod_lt; lia). reflexivity.
Qed.
Lemma num3_text s m e : sf_fmt3 (S754_finite s m e) = num_text (num3 s (sf_milli m e)).
Proof.
  unfold sf_fmt3, num_text, num3, unsigned_text. cbn [n_sign n_int n_frac n_exp]. rewrite ProofsStr.sapp_nil_r. destruct s; reflexivity.
Qed.
Lemma lower_digit c : is_digit c = true -> lower_ascii c = c.
Proof. unfold is_digit, lower_ascii. intros H. apply andb_prop in H as [H1 H2]. apply N.leb_le in H1, H2. destruct (N.leb_spec 65 (code c)); [lia|]. reflexivity. Qed.
Lemma digit_head s : digits s = true -> nonempty s = true -> exists c r, s = String c r /\ is_digit c = true.
Proof. destruct s as [|c r]; [discriminate|]. unfold digits. cbn [all_chars]. intros H _. apply andb_prop in H as [H _]. eauto. Qed.
(** the characters of a decimal numeral *)
Definition num_char (c : ascii) : bool := is_digit c || Ascii.eqb c "." || Ascii.eqb c "e" || Ascii.eqb c "-".
Lemma num_char_no c : num_char c = true -> Ascii.eqb c "_" = false /\ Ascii.eqb (lower_ascii c) "x" = false.
Proof. destruct c as [[] [] [] [] [] [] [] []]; intros H; try discriminate; split; reflexivity. Qed.
Lemma drop_same s : all_chars num_char s = true -> drop_under s = s.
Proof. induction s as [|c s IH]; [reflexivity|]. cbn [all_chars drop_under]. intros H. apply andb_prop in H as [H1 H2]. rewrite (proj1 (num_char_no c H1)), IH by exact H2. reflexivity. Qed.
Lemma digits_num s : digits s = true -> all_chars num_char s = true.
Proof. unfold digits. induction s as [|c s IH]; [reflexivity|]. cbn [all_chars]. intros H. apply andb_prop in H as [H1 H2]. rewrite IH by exact H2. unfold num_char. rewrite H1. reflexivity. Qed.
Lemma reads_decimal (neg : bool) c r : all_chars num_char (String c r) = true -> is_digit c = true \/ c = "."%char ->
  sf_parse ((if neg then "-" else "") ++ String c r)%string = sf_decimal neg (String c r).
Proof.
  intros Hall Hc. set (b := String c r) in *.
  assert (Hs : all_chars num_char ((if neg then "-" else "") ++ b)%string = true) by (destruct neg; exact Hall).
  unfold sf_parse. rewrite (drop_same _ Hs), String.eqb_refl.
  assert (Hm : match ((if neg then "-" else "") ++ b)%string with String "-"%char r => (true, r) | String "+"%char r => (false, r) | _ => (false, ((if neg then "-" else "") ++ b)%string) end = (neg, b)).
  { destruct neg; [reflexivity|]. unfold b. cbn [String.append]. destruct Hc as [Hc| ->]; [|reflexivity]. clear - Hc. destruct c as [[] [] [] [] [] [] [] []]; try reflexivity; discriminate. }
  unfold sf_plain. rewrite Hm. cbv zeta.
  assert (Hl : lower_ascii c = c) by (destruct Hc as [Hc| ->]; [now apply lower_digit|reflexivity]).
  assert (N1 : Ascii.eqb c "i" = false /\ Ascii.eqb c "n" = false).
  { destruct Hc as [Hc| ->]; [|split; reflexivity]. clear - Hc. destruct c as [[] [] [] [] [] [] [] []]; try discriminate; split; reflexivity. }
  destruct N1 as [N1 N2].
  assert (B1 : String.eqb (map_chars lower_ascii b) "inf" = false) by (unfold b; cbn [map_chars String.eqb]; rewrite Hl, N1; reflexivity).
  assert (B2 : String.eqb (map_chars lower_ascii b) "infinity" = false) by (unfold b; cbn [map_chars String.eqb]; rewrite Hl, N1; reflexivity).
  assert (B3 : String.eqb (map_chars lower_ascii ((if neg then "-" else "") ++ b)) "nan" = false).
  { destruct neg; [reflexivity|]. unfold b. cbn [String.append map_chars String.eqb]. rewrite Hl, N2. reflexivity. }
  assert (B4 : hasPrefix (map_chars lower_ascii b) "0x" = false).
  { unfold b, hasPrefix. cbn [map_chars String.prefix]. destruct (ascii_dec "0" (lower_ascii c)); [|reflexivity]. destruct r as [|c2 r]; [reflexivity|].
    cbn [map_chars String.prefix]. cbn [all_chars] in Hall. apply andb_prop in Hall as [_ Hall]. apply andb_prop in Hall as [Hall _].
    destruct (num_char_no c2 Hall) as [_ K]. destruct (ascii_dec "x" (lower_ascii c2)) as [E|]; [|reflexivity]. rewrite <- E in K. discriminate. }
  rewrite B1, B2, B3, B4. reflexivity.
Qed.
Lemma parse3 neg n : finite (sf_rat neg n 1000) ->
  sf_parse ((if neg then "-" else "") ++ unsigned_text (num3 neg n))%string = Some (sf_rat neg n 1000).
Proof.
  intros Hf. unfold unsigned_text, num3. cbn [n_int n_frac n_exp]. rewrite ProofsStr.sapp_nil_r.
  destruct (dec_str_digits (n / 1000)) as [D1 D2]. destruct (digit_head _ D1 D2) as (c & r & Es & Hc).
  destruct (dec_str_take (n / 1000) ("." ++ pad3 (n mod 1000))) as (d & Hd & Ht). specialize (Ht 0%nat).
  assert (Hall : all_chars num_char (dec_str (n / 1000) ++ "." ++ pad3 (n mod 1000)) = true).
  { rewrite !ProofsStr.all_chars_app, (digits_num _ D1), (digits_num _ (pad3_digits _ (N.mod_lt n 1000 ltac:(lia)))). reflexivity. }
  rewrite Es in Hall |- *. cbn [String.append] in Hall |- *.
  rewrite reads_decimal by (first [exact Hall|now left]).
  change (String c (r ++ String "." (pad3 (n mod 1000)))) with (String c r ++ "." ++ pad3 (n mod 1000))%string. rewrite <- Es.
  unfold sf_decimal. rewrite Ht. cbn [String.append take_digits]. change (is_digit ".") with false. cbv iota beta.
  rewrite pad3_take by (apply N.mod_lt; lia). cbv beta iota. rewrite !Nat.add_0_l.
  destruct (d + 3)%nat eqn:Ed; [lia|]. cbn [parse_exp].
  replace (n / 1000 * 1000 + n mod 1000) with n by (pose proof (N.div_mod n 1000 ltac:(lia)); lia).
  replace (clip_exp d 3 0 - Z.of_nat 3)%Z with (-3)%Z by (unfold clip_exp; lia). change (sf_dec neg n (-3)) with (sf_rat neg n 1000).
  destruct (sf_rat neg n 1000); try contradiction; reflexivity.
Qed.

(** ** values of the grid *)
Local Open Scope R_scope.
Lemma dyadic_format z k : (Z.abs z < 2 ^ 53)%Z -> (-1000 <= k)%Z -> generic_format radix2 fexp64 (IZR z * bpow radix2 k).
Proof.
  intros Hz Hk. change (IZR z * bpow radix2 k) with (F2R (Float radix2 z k)).
  apply generic_format_F2R' with (f := Float radix2 z k); [reflexivity|]. intros Hnz. cbn [Fexp]. unfold cexp, fexp64, emin.
  assert (Hlt : Rabs (F2R (Float radix2 z k)) < bpow radix2 (53 + k)).
  { rewrite bpow_plus. unfold F2R. cbn [Fnum Fexp]. rewrite Rabs_mult, (Rabs_pos_eq (bpow radix2 k)) by apply bpow_ge_0.
    apply Rmult_lt_compat_r; [apply bpow_gt_0|]. rewrite <- abs_IZR. change (bpow radix2 53) with (IZR (2 ^ 53)). apply IZR_lt, Hz. }
  assert (mag radix2 (F2R (Float radix2 z k)) <= 53 + k)%Z by (apply mag_le_bpow; assumption). lia.
Qed.
Lemma rnd_mono x y : x <= y -> rnd x <= rnd y.
Proof. apply round_le; [apply fexp_correct; reflexivity|apply valid_rnd_N]. Qed.
Lemma rnd_id x : generic_format radix2 fexp64 x -> rnd x = x.
Proof. intros H. apply round_generic; [apply valid_rnd_N|exact H]. Qed.
Lemma rnd_opp x : rnd (- x) = - rnd x.
Proof. apply round_NE_opp. Qed.
(** reading n thousandths and going to the 1/64 grid rounds 64 n / 1000 down *)
Lemma grid_floor n : (0 <= n < 2 ^ 40)%Z -> let k := (8 * n / 125)%Z in
  IZR k / 64 <= rnd (IZR n / 1000) < IZR (k + 1) / 64.
Proof.
  intros Hn k. assert (Hk : (125 * k <= 8 * n < 125 * (k + 1))%Z).
  { unfold k. pose proof (Z.div_mod (8 * n) 125 ltac:(lia)). pose proof (Z.mod_pos_bound (8 * n) 125 ltac:(lia)). lia. }
  assert (Hk1 : (8 * n <= 125 * (k + 1) - 1)%Z) by lia. destruct Hk as [Hk0 _]. assert (0 <= k < 2 ^ 38)%Z by lia.
  apply IZR_le in Hk0, Hk1. rewrite minus_IZR, !mult_IZR in Hk1. rewrite !mult_IZR in Hk0. split.
  - assert (E : IZR k / 64 = IZR k * bpow radix2 (-6)) by (cbn; lra).
    rewrite <- (rnd_id (IZR k / 64)) by (rewrite E; apply dyadic_format; lia). apply rnd_mono. lra.
  - set (y := IZR (k + 1) / 64 - 1 / 1048576).
    assert (E : y = IZR ((k + 1) * 16384 - 1) * bpow radix2 (-20)). { unfold y. rewrite minus_IZR, mult_IZR. cbn. lra. }
    assert (rnd (IZR n / 1000) <= y).
    { rewrite <- (rnd_id y) by (rewrite E; apply dyadic_format; lia). apply rnd_mono. unfold y. lra. }
    unfold y in *. lra.
Qed.
Lemma read3 O neg n : (n < 2 ^ 40)%N -> let x := sf_rat neg n 1000 in num_value (F64 O) (num3 neg n) = Some x
  /\ valid x /\ finite x /\ Rabs (val x) < bpow radix2 35
  /\ Ztrunc (64 * val x) = ((if neg then -1 else 1) * (8 * Z.of_N n / 125))%Z.
Proof.
  intros Hn. assert (HZ : (0 <= Z.of_N n < 2 ^ 40)%Z) by lia. pose proof (grid_floor _ HZ) as G. cbv zeta in G. set (k := (8 * Z.of_N n / 125)%Z) in *.
  assert (Hk : (0 <= k < 2 ^ 38)%Z).
  { unfold k. split; [apply Z.div_pos; lia|]. apply Z.div_lt_upper_bound; lia. }
  assert (Er : rnd (ratR neg n 1000) = (if neg then -1 else 1) * rnd (IZR (Z.of_N n) / 1000)).
  { unfold ratR. destruct neg; [|rewrite !Rmult_1_l; reflexivity].
    replace (-1 * (IZR (Z.of_N n) / 1000)) with (- (IZR (Z.of_N n) / 1000)) by ring. rewrite rnd_opp. ring. }
  set (v := rnd (IZR (Z.of_N n) / 1000)) in *.
  assert (Hv : 0 <= v < bpow radix2 35).
  { assert (0 <= IZR k <= 2 ^ 38 - 1). { split; [apply IZR_le; lia|]. replace (2 ^ 38 - 1) with (IZR (2 ^ 38 - 1)) by (cbn; lra). apply IZR_le. lia. }
    rewrite plus_IZR in G. cbn. lra. }
  assert (Ha : Rabs (rnd (ratR neg n 1000)) = v). { rewrite Er. destruct neg; rewrite Rabs_mult, (Rabs_pos_eq v) by lra; [rewrite Rabs_left by lra|rewrite Rabs_R1]; ring. }
  destruct (rat_round neg n 1000) as [Hf Hval]. { rewrite Ha. eapply Rlt_trans; [apply Hv|]. apply bpow_lt. lia. }
  intros x. unfold x. split; [|split; [apply rat_valid|split; [exact Hf|split]]].
  - unfold num_value. cbn [parseFloat F64 fmul flit]. change (n_sign (num3 neg n)) with (if neg then Minus else NoSign).
    replace (match (if neg then Minus else NoSign) with Minus => "-" | _ => "" end)%string with (if neg then "-" else "")%string by (destruct neg; reflexivity).
    rewrite parse3 by exact Hf. f_equal. apply mul_one; [apply rat_valid|exact Hf].
  - rewrite Hval, Ha. apply Hv.
  - rewrite Hval, Er. assert (T : Ztrunc (64 * v) = k).
    { rewrite Ztrunc_floor by lra. apply Zfloor_imp. rewrite plus_IZR in *. lra. }
    destruct neg.
    + replace (64 * (-1 * v)) with (- (64 * v)) by ring. rewrite Ztrunc_opp, T. lia.
    + rewrite Rmult_1_l, T. lia.
Qed.

(** ** printing a grid coordinate *)
Local Instance Hprec24 : FLX.Prec_gt_0 24 := eq_refl _.
Local Instance Hmax128 : Prec_lt_emax 24 128 := eq_refl _.
Lemma bra_equiv24 sx mx ex lx : SpecFloat.binary_round_aux 24 128 sx mx ex lx = binary_round_aux 24 128 mode_NE sx mx ex lx.
Proof.
  unfold SpecFloat.binary_round_aux, binary_round_aux. destruct (shr_fexp _ _ _) as [a b]. cbn. rewrite (rne_equiv sx). reflexivity.
Qed.
Lemma br_equiv24 s m e : SpecFloat.binary_round 24 128 s m e = binary_round 24 128 mode_NE s m e.
Proof. unfold SpecFloat.binary_round, binary_round, shl_align_fexp. destruct (shl_align _ _ _). apply bra_equiv24. Qed.
Lemma bn_equiv24 m e z : SpecFloat.binary_normalize 24 128 m e z = B2SF (binary_normalize 24 128 Hprec24 Hmax128 mode_NE m e z).
Proof. destruct m; [reflexivity| |]; cbn; rewrite B2SF_SF2B; apply br_equiv24. Qed.
Lemma f32_val z : (Z.abs z < 2 ^ 24)%Z -> valid (sf32_of_Z z) /\ finite (sf32_of_Z z) /\ val (sf32_of_Z z) = IZR z.
Proof.
  intros Hz. unfold sf32_of_Z. rewrite bn_equiv24.
  pose proof (binary_normalize_correct 24 128 Hprec24 Hmax128 mode_NE z 0 false) as H. cbn [round_mode] in H.
  assert (Hv : F2R (Float radix2 z 0) = IZR z) by (unfold F2R; cbn; lra). rewrite Hv in H.
  assert (Hlt : Rabs (IZR z) < bpow radix2 24).
  { rewrite <- abs_IZR. change (bpow radix2 24) with (IZR (2 ^ 24)). apply IZR_lt, Hz. }
  assert (Hg : generic_format radix2 (SpecFloat.fexp 24 128) (IZR z)).
  { rewrite <- Hv. apply generic_format_F2R' with (f := Float radix2 z 0); [reflexivity|]. intros Hnz. cbn [Fexp].
    unfold cexp, SpecFloat.fexp, emin. rewrite Hv in *.
    assert (mag radix2 (IZR z) <= 24)%Z by (apply mag_le_bpow; assumption). lia. }
  rewrite round_generic in H; [|apply valid_rnd_N|exact Hg].
  rewrite Rlt_bool_true in H by (eapply Rlt_trans; [exact Hlt|apply bpow_lt; lia]).
  destruct H as (H1 & H2 & _). destruct (binary_normalize 24 128 _ _ mode_NE z 0 false) as [s| | |s m e He]; try discriminate; cbn [B2SF B2R] in *.
  - repeat split. exact H1.
  - unfold prec64, emax64. rewrite bn_equiv. rewrite SF2R_B2SF. split; [apply valid_b|].
    pose proof (binary_normalize_correct 53 1024 Hprec Hmax mode_NE (cond_Zopp s (Zpos m)) e s) as K. cbn [round_mode] in K. rewrite H1 in K.
    rewrite rnd_id in K.
    + rewrite Rlt_bool_true in K by (eapply Rlt_trans; [exact Hlt|apply bpow_lt; lia]). destruct K as (K1 & K2 & _). split; [apply finite_b, K2|exact K1].
    + replace (IZR z) with (IZR z * bpow radix2 0) by (cbn; lra). apply dyadic_format; lia.
Qed.
Lemma coord_val O z : (Z.abs z < 2 ^ 24)%Z -> let y := fdiv (F64 O) (f32_of_Z (F64 O) z) (fnum (F64 O) 64) in
  valid y /\ finite y /\ val y = IZR z / 64.
Proof.
  intros Hz y. destruct (f32_val z Hz) as (V & Fi & E).
  assert (Ey : y = SFdiv 53 1024 (sf32_of_Z z) (sf_lit 64 1)) by reflexivity. clearbody y. subst y.
  assert (Hg : generic_format radix2 fexp64 (IZR z / 64)).
  { replace (IZR z / 64) with (IZR z * bpow radix2 (-6)) by (cbn; lra). apply dyadic_format; lia. }
  destruct (sf32_of_Z z) as [s| | |s m e]; try contradiction.
  - cbn in E. assert (z = 0)%Z by (apply eq_IZR; lra). subst z. replace (0 / 64) with 0 by lra. destruct s; cbn; repeat split; reflexivity.
  - pose proof (div_free s m e false 4503599627370496 (-46)) as [D1 D2]. cbv zeta in D1, D2.
    assert (C64 : sf_lit 64 1 = S754_finite false 4503599627370496 (-46)) by (vm_compute; reflexivity).
    rewrite C64. split; [exact D1|].
    assert (Eq : F2R (Float radix2 (cond_Zopp s (Zpos m)) e) / F2R (Float radix2 (cond_Zopp false 4503599627370496) (-46)) = IZR z / 64).
    { unfold SF2R in E. rewrite E. f_equal. unfold F2R. cbn. lra. }
    rewrite Eq, rnd_id in D2 by exact Hg. apply D2.
    assert (Hlt : Rabs (IZR z) < bpow radix2 24).
    { rewrite <- abs_IZR. change (bpow radix2 24) with (IZR (2 ^ 24)). apply IZR_lt, Hz. }
    eapply Rle_lt_trans with (bpow radix2 24); [|apply bpow_lt; lia]. unfold Rdiv. rewrite Rabs_mult, (Rabs_pos_eq (/ 64)) by lra.
    pose proof (Rabs_pos (IZR z)). lra.
Qed.
(** thousandths of |z| / 64, ties to even *)
Definition milli (z : Z) : N :=
  let n := (125 * Z.abs_N z)%N in let q := (n / 8)%N in let r := (n mod 8)%N in
  if (r <? 4)%N then q else if (4 <? r)%N then (q + 1)%N else if N.even q then q else (q + 1)%N.
Lemma div_unique2 a b q r q' r' : (r < b -> r' < b -> b * q + r = a -> b * q' + r' = a -> q = q' /\ r = r')%N.
Proof. intros. assert (q = q') by nia. subst. split; lia. Qed.
Lemma milli_eq m e z : (IZR (Zpos m) * bpow radix2 e = IZR (Z.abs z) / 64) -> sf_milli m e = milli z.
Proof.
  intros H. unfold sf_milli, milli. set (n := (125 * Z.abs_N z)%N).
  pose proof (N.div_mod n 8 ltac:(lia)) as DM. pose proof (N.mod_lt n 8 ltac:(lia)) as ML.
  destruct (Z.leb_spec 0 e) as [He|He].
  - assert (Eq : (Z.pos m * 2 ^ e * 64 = Z.abs z)%Z).
    { apply eq_IZR. rewrite !mult_IZR. replace (IZR (2 ^ e)) with (bpow radix2 e) by (symmetry; apply (IZR_Zpower radix2), He). lra. }
    assert (En : n = (8 * (Npos m * 1000 * 2 ^ Z.to_N e))%N).
    { unfold n. apply N2Z.inj. rewrite !N2Z.inj_mul, N2Z.inj_pow, Z2N.id, N2Z.inj_abs_N by exact He. change (Z.of_N (Npos m)) with (Zpos m). change (Z.of_N 2) with 2%Z. change (Z.of_N 125) with 125%Z. change (Z.of_N 8) with 8%Z. change (Z.of_N 1000) with 1000%Z. lia. }
    destruct (div_unique2 n 8 (n / 8) (n mod 8) (Npos m * 1000 * 2 ^ Z.to_N e) 0) as [Q R]; try lia. rewrite R. change (0 <? 4)%N with true. cbv iota. symmetry. exact Q.
  - set (d := (2 ^ Z.to_N (- e))%N). assert (Hd : (0 < d)%N) by (unfold d; apply N.neq_0_lt_0, N.pow_nonzero; lia).
    set (a := (Npos m * 1000)%N).
    assert (Eq : (Z.pos m * 64 = Z.abs z * 2 ^ (- e))%Z).
    { apply eq_IZR. rewrite !mult_IZR. replace (IZR (2 ^ - e)) with (bpow radix2 (- e)) by (symmetry; apply (IZR_Zpower radix2); lia).
      rewrite bpow_opp. pose proof (bpow_gt_0 radix2 e). apply (Rmult_eq_reg_r (bpow radix2 e)); [|lra].
      rewrite (Rmult_assoc _ (/ _)), Rinv_l by lra. lra. }
    assert (En : (8 * a = n * d)%N).
    { unfold a, n, d. apply N2Z.inj. rewrite !N2Z.inj_mul, N2Z.inj_pow, Z2N.id, N2Z.inj_abs_N by lia. change (Z.of_N (Npos m)) with (Zpos m). change (Z.of_N 2) with 2%Z. change (Z.of_N 125) with 125%Z. change (Z.of_N 8) with 8%Z. change (Z.of_N 1000) with 1000%Z. lia. }
    pose proof (N.div_mod a d ltac:(lia)) as DA. pose proof (N.mod_lt a d ltac:(lia)) as MA.
    set (q := (a / d)%N) in *. set (r := (a mod d)%N) in *. set (q' := (n / 8)%N) in *. set (r' := (n mod 8)%N) in *.
    destruct (div_unique2 (8 * a) (8 * d) q (8 * r) q' (r' * d)) as [Q R]; try nia. rewrite <- Q.
    destruct (N.ltb_spec (2 * r) d), (N.ltb_spec r' 4); try nia; try reflexivity.
    destruct (N.ltb_spec d (2 * r)), (N.ltb_spec 4 r'); try nia; reflexivity.
Qed.
Lemma coord_text O z : (Z.abs z < 2 ^ 24)%Z -> coord (E := F64 O) z = num_text (num3 (z <? 0)%Z (milli z)).
Proof.
  intros Hz. unfold coord. destruct (coord_val O z Hz) as (V & Fi & E). cbn [fmt_3f F64] in *.
  set (y := fdiv _ _ _) in *. destruct y as [s| | |s m e] eqn:Ey; try contradiction.
  - cbn in E. assert (z = 0)%Z by (apply eq_IZR; lra). subst z. vm_compute in Ey. injection Ey as <-. reflexivity.
  - rewrite num3_text. unfold SF2R, F2R in E. cbn [Fnum Fexp] in E. pose proof (bpow_gt_0 radix2 e) as Hb.
    assert (Hm : 0 < IZR (Zpos m)) by (apply IZR_lt; lia).
    destruct s; cbn [cond_Zopp] in E.
    + rewrite opp_IZR in E. assert (IZR z < 0) by nra. assert (z < 0)%Z by (apply lt_IZR; exact H). 
      rewrite (proj2 (Z.ltb_lt z 0)) by assumption. rewrite (milli_eq m e z); [reflexivity|]. rewrite Z.abs_neq by lia. rewrite opp_IZR. lra.
    + assert (0 < IZR z) by nra. assert (0 < z)%Z by (apply lt_IZR; exact H). 
      rewrite (proj2 (Z.ltb_ge z 0)) by lia. rewrite (milli_eq m e z); [reflexivity|]. rewrite Z.abs_eq by lia. lra.
Qed.

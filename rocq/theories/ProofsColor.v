(** * ProofsColor: colour values *)
From Coq Require Import Lia.
From Verif Require Export ProofsUnit.
Local Open Scope go_scope.

(** ** splitting *)
Definition no_char (d : ascii) (s : string) : bool := all_chars (fun c => negb (Ascii.eqb c d)) s.
Lemma split1_none d s : no_char d s = true -> split1 d s = [s].
Proof.
  unfold no_char. induction s as [|c s IH]; [reflexivity|]. cbn [all_chars split1]. intros H.
  apply andb_prop in H as [Hc Hs]. apply negb_true_iff in Hc. rewrite Hc, IH by assumption. reflexivity.
Qed.
Lemma split1_cons d a s : no_char d a = true -> split1 d (a ++ String d s) = a :: split1 d s.
Proof.
  unfold no_char. induction a as [|c a IH]; cbn [append all_chars split1]; intros H.
  - rewrite Ascii.eqb_refl. reflexivity.
  - apply andb_prop in H as [Hc Hs]. apply negb_true_iff in Hc. rewrite Hc, IH by assumption. reflexivity.
Qed.
Lemma split1_ne d s : split1 d s <> [].
Proof. destruct s as [|c s]; [discriminate|]. cbn [split1]. destruct (Ascii.eqb c d); [discriminate|]. destruct (split1 d s); discriminate. Qed.

(** ** decimal numerals *)
Lemma digit_cases c : is_digit c = true -> List.In c ["0"; "1"; "2"; "3"; "4"; "5"; "6"; "7"; "8"; "9"]%char.
Proof.
  destruct c as [b0 b1 b2 b3 b4 b5 b6 b7].
  destruct b0, b1, b2, b3, b4, b5, b6, b7; cbv; intros H; try discriminate H; tauto.
Qed.
Lemma dec_digits_val s : all_chars is_digit s = true -> forall acc, dec_digits s acc
  = Some (fold_left (fun a c => a * 10 + (Z.of_N (code c) - 48))%Z (list_ascii_of_string s) acc).
Proof.
  induction s as [|c s IH]; [reflexivity|]. cbn [all_chars dec_digits list_ascii_of_string fold_left].
  intros H acc. apply andb_prop in H as [Hc Hs]. rewrite Hc. auto.
Qed.
Lemma dec_val_pos s : all_chars is_digit s = true -> (0 <= dec_val s)%Z.
Proof.
  unfold dec_val. intros H. assert (K : forall acc, (0 <= acc)%Z -> (0 <= fold_left (fun a c => a * 10 + (Z.of_N (code c) - 48))%Z (list_ascii_of_string s) acc)%Z);
    [|apply K; lia].
  revert H. induction s as [|c s IH]; [auto|]. cbn [all_chars list_ascii_of_string fold_left].
  intros H acc Ha. apply andb_prop in H as [Hc Hs]. apply IH; [assumption|]. apply digit_code in Hc. lia.
Qed.
Lemma atoi_decimal d : decimal d = true -> (dec_val d < 2 ^ 63)%Z -> atoi d = Ret (dec_val d).
Proof.
  unfold decimal. intros H Hlt. apply andb_prop in H as [Hd Hne].
  pose proof (dec_val_pos d Hd) as Hpos. pose proof (dec_digits_val d Hd 0%Z) as Hv. fold (dec_val d) in Hv.
  destruct d as [|c r]; [discriminate|].
  assert (Hgo : forall e, (match dec_digits (String c r) 0%Z with
     | None => Err e
     | Some n => if ((int64_min <=? n) && (n <=? int64_max))%Z then Ret n else Err e end) = Ret (dec_val (String c r))).
  { intros e. rewrite Hv. unfold int64_min, int64_max. 
    destruct (Z.leb_spec (- 2 ^ 63) (dec_val (String c r))); [|lia].
    destruct (Z.leb_spec (dec_val (String c r)) (2 ^ 63 - 1)); [reflexivity|lia]. }
  pose proof Hd as Hc. cbn [all_chars] in Hc. apply andb_prop in Hc as [Hc _]. apply digit_cases in Hc. cbn in Hc.
  repeat (destruct Hc as [<-|Hc]; [exact (Hgo _)|]). destruct Hc.
Qed.

(** ** one component *)
Lemma byteat_last (c : ascii) (s : string) : byteat (s ++ String c EmptyString) (len s) = Ret c.
Proof.
  unfold byteat. induction s as [|a s IH]; [reflexivity|]. exact IH.
Qed.
Lemma last_byte s c : ends_with (Ascii.eqb c) s = true ->
  match len s with O => Panic | S n => byteat s n end = Ret c.
Proof.
  rewrite ends_with_rev. destruct (rev_str s) as [|x q] eqn:Hr; [discriminate|]. intros He.
  apply Ascii.eqb_eq in He. subst x.
  assert (Hs : s = (rev_str q ++ String c EmptyString)%string).
  { rewrite <- (rev_rev s), Hr, rev_cons. reflexivity. }
  rewrite Hs. rewrite len_app. cbn [len String.length]. rewrite Nat.add_comm. cbn [Nat.add]. apply byteat_last.
Qed.
Lemma blank_not c : is_blank c = true -> c <> "%"%char /\ c <> ","%char /\ c <> ")"%char /\ is_ascii c = true.
Proof.
  unfold is_blank. intros H. apply existsb_exists in H as (x & Hx & He). apply Ascii.eqb_eq in He. subst x.
  cbn in Hx. repeat (destruct Hx as [<-|Hx]; [repeat split; try discriminate|]). destruct Hx.
Qed.
Lemma digit_not c : is_digit c = true -> c <> "%"%char /\ c <> ","%char /\ c <> ")"%char /\ is_ascii c = true.
Proof.
  intros H. apply digit_cases in H. cbn in H. repeat (destruct H as [<-|H]; [repeat split; try discriminate|]). destruct H.
Qed.
Lemma digit_plain c : is_digit c = true -> plain c = true.
Proof. intros H. apply digit_cases in H. cbn in H. repeat (destruct H as [<-|H]; [reflexivity|]). destruct H. Qed.
Lemma decimal_solid d : decimal d = true -> solid d = true.
Proof.
  unfold decimal. intros H. apply andb_prop in H as [H _]. apply solid_chars. revert H. apply all_chars_imp, digit_plain.
Qed.
(** digits and blanks only *)
Definition dig_blank (c : ascii) : bool := is_digit c || is_blank c.
Lemma dig_blank_pad l d r : blank l = true -> decimal d = true -> blank r = true -> all_chars dig_blank (l ++ d ++ r) = true.
Proof.
  unfold blank, decimal. intros Hl Hd Hr. apply andb_prop in Hd as [Hd _]. rewrite !all_chars_app.
  apply andb_true_intro. split; [|apply andb_true_intro; split].
  - revert Hl. apply all_chars_imp. intros c H. unfold dig_blank. rewrite H. apply orb_true_r.
  - revert Hd. apply all_chars_imp. intros c H. unfold dig_blank. rewrite H. reflexivity.
  - revert Hr. apply all_chars_imp. intros c H. unfold dig_blank. rewrite H. apply orb_true_r.
Qed.
Lemma dig_blank_not c : dig_blank c = true -> c <> "%"%char /\ c <> ","%char /\ c <> ")"%char /\ is_ascii c = true.
Proof. intros H. apply orb_prop in H as [H|H]; [apply digit_not|apply blank_not]; exact H. Qed.

Lemma rev_nonempty s : s <> EmptyString -> exists c q, rev_str s = String c q.
Proof. intros H. destruct (rev_str s) eqn:Hr; [|eauto]. rewrite <- (rev_rev s), Hr in H. contradiction. Qed.
Lemma last_byte_ne s : s <> EmptyString -> exists c, match len s with O => Panic | S n => byteat s n end = Ret c
  /\ exists q, rev_str s = String c q.
Proof.
  intros H. destruct (rev_nonempty s H) as (c & q & Hr). exists c. split; [|eauto].
  apply last_byte. rewrite ends_with_rev, Hr. apply Ascii.eqb_refl.
Qed.

Lemma wrap64_small z : (0 <= z < 2 ^ 63)%Z -> wrap64 z = z.
Proof.
  intros H. unfold wrap64, wrap. change (2 ^ 64 / 2)%Z with (2 ^ 63)%Z. cbv zeta. rewrite Z.mod_small by lia.
  destruct (Z.ltb_spec z (2 ^ 63)); lia.
Qed.
Lemma component_value s n : component s n -> parseColorValue s = Ret n.
Proof.
  intros H. destruct H as [l d r Hl Hr Hd Hlt|l d r Hl Hr Hd Hle]; unfold parseColorValue.
  - assert (Hne : (l ++ d ++ r)%string <> EmptyString).
    { unfold decimal in Hd. destruct l; [|discriminate]. destruct d; [discriminate|discriminate]. }
    destruct (last_byte_ne _ Hne) as (c & -> & q & Hq). cbn [obind].
    assert (Hc : dig_blank c = true).
    { pose proof (dig_blank_pad l d r Hl Hd Hr) as H.
      assert (H' : all_chars dig_blank (rev_str (l ++ d ++ r)) = true) by (unfold rev_str; rewrite rev_acc_chars, H; reflexivity).
      rewrite Hq in H'. cbn [all_chars] in H'. apply andb_prop in H' as [H' _]. exact H'. }
    destruct (dig_blank_not c Hc) as (Hp & _). apply Ascii.eqb_neq in Hp. rewrite Hp.
    rewrite trimSpace_pad by (auto using decimal_solid). rewrite atoi_decimal by assumption. cbn [obind].
    pose proof (dec_val_pos d) as Hpos. unfold decimal in Hd. apply andb_prop in Hd as [Hd _]. specialize (Hpos Hd).
    f_equal. unfold uint8. destruct (Z.ltb_spec 255 (dec_val d)).
    + rewrite Z.min_l by lia. reflexivity.
    + rewrite Z.min_r by lia. apply Z.mod_small. lia.
  - pose proof (dec_val_pos d) as Hpos. pose proof Hd as Hd'. unfold decimal in Hd'. apply andb_prop in Hd' as [Hd' _]. specialize (Hpos Hd').
    rewrite last_byte with (c := "%"%char).
    2:{ rewrite ends_with_rev, !rev_app. reflexivity. }
    cbn [obind]. rewrite Ascii.eqb_refl.
    replace (l ++ d ++ r ++ "%")%string with ((l ++ d ++ r) ++ "%")%string by (rewrite !sapp_assoc; reflexivity).
    rewrite len_app. cbn [len String.length].
    replace (slice ((l ++ d ++ r) ++ "%") 0 (len (l ++ d ++ r)%string + 1 - 1)) with (Ret (l ++ d ++ r)%string).
    2:{ symmetry. apply (slice_mid EmptyString (l ++ d ++ r) "%"); cbn; [reflexivity|lia]. }
    cbn [obind]. rewrite trimSpace_pad by (auto using decimal_solid). rewrite atoi_decimal by (auto; lia). cbn [obind].
    f_equal. rewrite wrap64_small by lia. unfold uint8.
    rewrite Z.quot_div_nonneg by lia. apply Z.mod_small. split; [apply Z.div_pos; lia|].
    apply Z.div_lt_upper_bound; lia.
Qed.

(** ** the whole value *)
Lemma hex_cases c v : hex_val c = Some v -> hex_digit c = Some v /\ is_ascii c = true /\ (0 <= v < 16)%Z
  /\ is_ascii (lower_ascii c) = true.
Proof.
  destruct c as [b0 b1 b2 b3 b4 b5 b6 b7].
  destruct b0, b1, b2, b3, b4, b5, b6, b7; intros H; try discriminate H; injection H as <-;
    (split; [reflexivity|split; [reflexivity|split; [lia|reflexivity]]]).
Qed.
Lemma lower_is_ascii c : is_ascii (lower_ascii c) = is_ascii c.
Proof.
  destruct c as [b0 b1 b2 b3 b4 b5 b6 b7].
  destruct b0, b1, b2, b3, b4, b5, b6, b7; reflexivity.
Qed.
Lemma low_ascii s : all_chars is_ascii (low_case s) = all_chars is_ascii s.
Proof. unfold low_case. induction s as [|c s IH]; [reflexivity|]. cbn. rewrite lower_is_ascii, IH. reflexivity. Qed.

Section Colours.
Context (E : Env) (Hnames : name_table E).
Lemma toLower_low s : all_chars is_ascii s = true -> toLower E s = low_case s.
Proof. intros H. unfold toLower, low_case. rewrite H. reflexivity. Qed.
Lemma no_name c s : is_lower c = false -> colorname E (String c s) = None.
Proof.
  intros Hc. destruct (colorname E (String c s)) as [v|] eqn:Hn; [|reflexivity].
  apply Hnames in Hn as (Hl & _). cbn [all_chars] in Hl. rewrite Hc in Hl. discriminate.
Qed.
Lemma no_name_in s : all_chars is_lower s = false -> colorname E s = None.
Proof.
  intros Hc. destruct (colorname E s) as [v|] eqn:Hn; [|reflexivity].
  apply Hnames in Hn as (Hl & _). rewrite Hl in Hc. discriminate.
Qed.
Lemma hash_start t : all_chars is_ascii t = true -> 
  parseSVGColor (E := E) (String "#" t) = ('(r, g, b) <~ parseSVGColorNum (String "#" t) ;; Ret (Some (r, g, b, 255%Z))).
Proof.
  intros Ha. unfold parseSVGColor. rewrite toLower_low by exact Ha.
  change (low_case (String "#" t)) with (String "#" (low_case t)).
  change (hasPrefix (String "#" (low_case t)) "url") with false. cbn iota.
  change (String.eqb (String "#" (low_case t)) "none") with false. cbn iota.
  rewrite no_name by reflexivity.
  replace (trimPrefix (String "#" t) "rgb(") with (String "#" t) by reflexivity.
  rewrite String.eqb_refl. reflexivity.
Qed.
Lemma hex_pair a b va vb : hex_val a = Some va -> hex_val b = Some vb ->
  parseUint16_8 (String a (String b "")) = Ret (16 * va + vb)%Z.
Proof.
  intros Ha Hb. apply hex_cases in Ha as (Ha & _ & Ba & _). apply hex_cases in Hb as (Hb & _ & Bb & _).
  unfold parseUint16_8. cbn [hex_digits]. rewrite Ha, Hb.
  replace ((0 * 16 + va) * 16 + vb)%Z with (16 * va + vb)%Z by lia.
  destruct (Z.leb_spec (16 * va + vb) 255); [reflexivity|lia].
Qed.
Lemma dig_blank_component s z : component s z -> all_chars (fun c => dig_blank c || Ascii.eqb c "%") s = true.
Proof.
  intros [l d r Hl Hr Hd _|l d r Hl Hr Hd _].
  - generalize (dig_blank_pad l d r Hl Hd Hr). apply all_chars_imp. intros c ->. reflexivity.
  - replace (l ++ d ++ r ++ "%")%string with ((l ++ d ++ r) ++ "%")%string by (rewrite !sapp_assoc; reflexivity).
    rewrite all_chars_app. apply andb_true_intro. split; [|reflexivity].
    generalize (dig_blank_pad l d r Hl Hd Hr). apply all_chars_imp. intros c ->. reflexivity.
Qed.
Lemma component_chars s z : component s z -> no_char "," s = true /\ all_chars is_ascii s = true.
Proof.
  intros H. apply dig_blank_component in H. split; revert H; apply all_chars_imp; intros c Hc;
    apply orb_prop in Hc as [Hc|Hc].
  - apply dig_blank_not in Hc as (_ & Hc & _). apply negb_true_iff, Ascii.eqb_neq. exact Hc.
  - apply Ascii.eqb_eq in Hc. subst c. reflexivity.
  - apply dig_blank_not in Hc. tauto.
  - apply Ascii.eqb_eq in Hc. subst c. reflexivity.
Qed.

Theorem parseSVGColor_colour s p : colour E s p -> parseSVGColor (E := E) s = Ret p.
Proof.
  intros H. destruct H as [r1 r2 g1 g2 b1 b2 vr1 vr2 vg1 vg2 vb1 vb2 R1 R2 G1 G2 B1 B2|r g b vr vg vb R G B|s1 s2 s3 r g b R G B|s Hs|s c Ha Hs].
  - cbn [string_of_list_ascii]. rewrite hash_start.
    2:{ cbn [all_chars]. repeat match goal with H : hex_val _ = Some _ |- _ => apply hex_cases in H as (_ & -> & _) end. reflexivity. }
    unfold parseSVGColorNum.
    assert (Ht : trimPrefix (String "#" (String r1 (String r2 (String g1 (String g2 (String b1 (String b2 ""))))))) "#"
      = String r1 (String r2 (String g1 (String g2 (String b1 (String b2 "")))))) by reflexivity.
    rewrite Ht. clear Ht. cbn [String.length Nat.eqb obind].
    cbv zeta. cbn [slice Nat.leb andb String.length String.substring Nat.sub obind].
    rewrite (hex_pair r1 r2 vr1 vr2), (hex_pair g1 g2 vg1 vg2), (hex_pair b1 b2 vb1 vb2) by assumption. reflexivity.
  - cbn [string_of_list_ascii]. rewrite hash_start.
    2:{ cbn [all_chars]. repeat match goal with H : hex_val _ = Some _ |- _ => apply hex_cases in H as (_ & -> & _) end. reflexivity. }
    unfold parseSVGColorNum.
    assert (Ht : trimPrefix (String "#" (String r (String g (String b "")))) "#"
      = String r (String g (String b ""))) by reflexivity.
    rewrite Ht. clear Ht. cbv zeta. cbn [String.length Nat.eqb byteat String.get string_of_list_ascii obind].
    cbn [slice Nat.leb andb String.length String.substring Nat.sub obind].
    rewrite (hex_pair r r vr vr), (hex_pair g g vg vg), (hex_pair b b vb vb) by assumption. cbn [obind].
    replace (16 * vr + vr)%Z with (17 * vr)%Z by lia. replace (16 * vg + vg)%Z with (17 * vg)%Z by lia.
    replace (16 * vb + vb)%Z with (17 * vb)%Z by lia. reflexivity.
  - pose proof (component_chars _ _ R) as (Cr & Ar). pose proof (component_chars _ _ G) as (Cg & Ag).
    pose proof (component_chars _ _ B) as (Cb & Ab).
    unfold parseSVGColor. rewrite toLower_low.
    2:{ rewrite !all_chars_app. rewrite Ar, Ag, Ab. reflexivity. }
    set (body := (s1 ++ "," ++ s2 ++ "," ++ s3 ++ ")")%string).
    change (low_case ("rgb(" ++ body)) with (String "r" (String "g" (String "b" (String "(" (low_case body))))).
    change (hasPrefix (String "r" (String "g" (String "b" (String "(" (low_case body))))) "url") with false. cbn iota.
    change (String.eqb (String "r" (String "g" (String "b" (String "(" (low_case body))))) "none") with false. cbn iota.
    rewrite no_name_in by reflexivity.
    cbv zeta. rewrite trimPrefix_app.
    destruct (String.eqb body ("rgb(" ++ body)) eqn:He.
    { apply String.eqb_eq in He. apply (f_equal len) in He. rewrite len_app in He. cbn in He. lia. }
    cbn [negb]. unfold body.
    replace (s1 ++ "," ++ s2 ++ "," ++ s3 ++ ")")%string with ((s1 ++ "," ++ s2 ++ "," ++ s3) ++ ")")%string
      by (rewrite !sapp_assoc; reflexivity).
    rewrite trimSuffix_app.
    change ("," ++ s2 ++ "," ++ s3)%string with (String "," (s2 ++ String "," s3)).
    rewrite split1_cons, split1_cons, split1_none by assumption.
    rewrite (component_value _ _ R), (component_value _ _ G), (component_value _ _ B). reflexivity.
  - unfold parseSVGColor. rewrite toLower_low by (rewrite <- low_ascii, Hs; reflexivity). rewrite Hs. reflexivity.
  - unfold parseSVGColor. rewrite toLower_low by exact Ha. pose proof (Hnames _ _ Hs) as (_ & Hu & Hn & _).
    rewrite Hu. apply String.eqb_neq in Hn. rewrite Hn, Hs. destruct c as (((cr & cg) & cb) & ca). reflexivity.
Qed.

(** ** panics *)
Lemma atoi_np s : atoi s <> Panic.
Proof.
  unfold atoi. intros H. repeat match type of H with context [match ?x with _ => _ end] => destruct x; try discriminate H end.
Qed.
Lemma uint_np s : parseUint16_8 s <> Panic.
Proof.
  unfold parseUint16_8. intros H. repeat match type of H with context [match ?x with _ => _ end] => destruct x; try discriminate H end.
Qed.
Lemma obind_panic {A B} (o : outcome A) (k : A -> outcome B) :
  obind o k = Panic -> o = Panic \/ exists a, o = Ret a /\ k a = Panic.
Proof. destruct o; cbn; intros H; eauto; discriminate. Qed.
Lemma parseColorValue_panic s : parseColorValue s = Panic -> s = EmptyString.
Proof.
  intros H. destruct (String.eqb_spec s EmptyString) as [|Hne]; [assumption|exfalso].
  destruct (last_byte_ne s Hne) as (k & Hk & _). unfold parseColorValue in H. rewrite Hk in H. cbn [obind] in H.
  destruct (Ascii.eqb k "%").
  - apply obind_panic in H as [H|(b & _ & H)].
    + unfold slice in H. destruct (Nat.leb_spec (String.length s - 1) (String.length s)); [discriminate H|lia].
    + apply obind_panic in H as [H|(n & _ & H)]; [exact (atoi_np _ H)|discriminate].
  - apply obind_panic in H as [H|(n & _ & H)]; [exact (atoi_np _ H)|discriminate].
Qed.
Lemma parseSVGColorNum_panic t : parseSVGColorNum (String "#" t) = Panic -> len t < 3.
Proof.
  unfold parseSVGColorNum. replace (trimPrefix (String "#" t) "#") with t by (symmetry; apply (trimPrefix_app "#" t)).
  cbv zeta. intros H. destruct t as [|a [|b [|c t]]]; [cbn; lia..|exfalso].
  assert (Hs : forall u, String.length u = 6 -> 
    (s0 <~ slice u 0 2;; s1 <~ slice u 2 4;; s2 <~ slice u 4 6;;
     r <~ parseUint16_8 s0;; g <~ parseUint16_8 s1;; b0 <~ parseUint16_8 s2;; Ret (r, g, b0)) = Panic -> False).
  { intros u Hu H0. unfold slice in H0. rewrite Hu in H0. cbn [Nat.leb andb obind] in H0.
    repeat (apply obind_panic in H0 as [H0|(? & _ & H0)]; [exact (uint_np _ H0)|]). discriminate. }
  apply obind_panic in H as [H|(u & Hu & H)].
  - destruct (String.length (String a (String b (String c t))) =? 6); [discriminate|]. cbn in H. discriminate.
  - apply (Hs u); [|exact H]. destruct (String.length (String a (String b (String c t))) =? 6) eqn:Hl.
    + injection Hu as <-. apply Nat.eqb_eq in Hl. exact Hl.
    + cbn in Hu. injection Hu as <-. reflexivity.
Qed.
Lemma split1_join d s : forall l, split1 d s = l -> match l with
  | [a] => s = a
  | [a; b] => s = (a ++ String d b)%string
  | [a; b; c] => s = (a ++ String d (b ++ String d c))%string
  | _ => True end.
Proof.
  enough (K : s = (fix join l := match l with [] => ""%string | [a] => a | a :: r => (a ++ String d (join r))%string end) (split1 d s)).
  { intros l Hl. rewrite Hl in K. destruct l as [|a [|b [|c [|e l]]]]; auto. }
  induction s as [|c s IH]; [reflexivity|]. cbn [split1]. pose proof (split1_ne d s) as Hne.
  destruct (Ascii.eqb c d) eqn:Hc.
  - apply Ascii.eqb_eq in Hc. subst c. destruct (split1 d s) as [|x l]; [contradiction|]. cbn. f_equal. exact IH.
  - destruct (split1 d s) as [|x l]; [contradiction|]. rewrite IH. destruct l; reflexivity.
Qed.
Lemma trimPrefix_cases s p : trimPrefix s p = s \/ s = (p ++ trimPrefix s p)%string.
Proof.
  destruct (hasPrefix s p) eqn:Hp; [|unfold trimPrefix; rewrite Hp; auto].
  apply prefix_iff in Hp as (t & ->). rewrite trimPrefix_app. auto.
Qed.
Lemma trimSuffix_cases s p : trimSuffix s p = s \/ s = (trimSuffix s p ++ p)%string.
Proof.
  destruct (hasSuffix s p) eqn:Hp; [|unfold trimSuffix; rewrite Hp; auto].
  apply suffix_iff in Hp as (t & ->). rewrite trimSuffix_app. auto.
Qed.

(** the only texts on which colour parsing can panic *)
Theorem parseSVGColor_panic s : parseSVGColor (E := E) s = Panic ->
  s = EmptyString
  \/ (exists t, s = String "#" t /\ len t < 3)
  \/ (exists a b c e, s = ("rgb(" ++ a ++ "," ++ b ++ "," ++ c ++ e)%string
       /\ (e = "" \/ e = ")")%string /\ (a = "" \/ b = "" \/ c = "")%string).
Proof.
  unfold parseSVGColor. intros H. destruct (hasPrefix (toLower E s) "url"); [discriminate|].
  destruct (String.eqb (toLower E s) "none"); [discriminate|].
  destruct (colorname E (toLower E s)) as [(((? & ?) & ?) & ?)|]; [discriminate|].
  cbv zeta in H. destruct (trimPrefix_cases s "rgb(") as [He|He].
  - rewrite He, String.eqb_refl in H. cbn [negb] in H.
    destruct s as [|k t]; [auto|]. cbn [byteat String.get obind] in H.
    destruct (Ascii.eqb k "#") eqn:Hk; [|discriminate]. apply Ascii.eqb_eq in Hk. subst k. right. left.
    exists t. split; [reflexivity|]. apply parseSVGColorNum_panic.
    apply obind_panic in H as [H|(((? & ?) & ?) & _ & H)]; [exact H|discriminate].
  - right. right. set (t := trimPrefix s "rgb(") in *. clearbody t. subst s.
    destruct (String.eqb t ("rgb(" ++ t)) eqn:Hn.
    { apply String.eqb_eq in Hn. apply (f_equal len) in Hn. rewrite len_app in Hn. cbn in Hn. lia. }
    cbn [negb] in H.
    pose proof (split1_join "," (trimSuffix t ")") _ eq_refl) as Hj.
    destruct (split1 "," (trimSuffix t ")")) as [|a [|b [|c [|? ?]]]]; try discriminate H.
    assert (Hemp : (a = "" \/ b = "" \/ c = "")%string).
    { apply obind_panic in H as [H|(? & _ & H)]; [apply parseColorValue_panic in H; auto|].
      apply obind_panic in H as [H|(? & _ & H)]; [apply parseColorValue_panic in H; auto|].
      apply obind_panic in H as [H|(? & _ & H)]; [apply parseColorValue_panic in H; auto|discriminate]. }
    destruct (trimSuffix_cases t ")") as [Ht|Ht]; rewrite Hj in Ht.
    + exists a, b, c, EmptyString. rewrite sapp_nil_r. rewrite <- Ht. split; [reflexivity|]. split; auto.
    + exists a, b, c, ")"%string. rewrite Ht. split; [|auto]. f_equal.
      rewrite sapp_assoc. f_equal. cbn. f_equal. rewrite sapp_assoc. reflexivity.
Qed.
Lemma empty_start t : String.prefix "rgb(" t = false -> trimPrefix t "rgb(" = t.
Proof. unfold trimPrefix, hasPrefix. intros ->. reflexivity. Qed.
(** and these do *)
Theorem parseSVGColor_panics s : all_chars is_ascii s = true ->
  s = EmptyString
  \/ (exists t, s = String "#" t /\ len t < 3)
  \/ (exists b c, s = ("rgb(," ++ b ++ "," ++ c ++ ")")%string /\ no_char "," b = true /\ no_char "," c = true)
  \/ (exists a n c, s = ("rgb(" ++ a ++ ",," ++ c ++ ")")%string /\ component a n /\ no_char "," c = true)
  \/ (exists a n b m, s = ("rgb(" ++ a ++ "," ++ b ++ ",)")%string /\ component a n /\ component b m) ->
  parseSVGColor (E := E) s = Panic.
Proof.
  assert (Hrgb : forall a b c, all_chars is_ascii ("rgb(" ++ (a ++ "," ++ b ++ "," ++ c) ++ ")")%string = true ->
    no_char "," a = true -> no_char "," b = true -> no_char "," c = true ->
    parseSVGColor (E := E) ("rgb(" ++ (a ++ "," ++ b ++ "," ++ c) ++ ")")%string
    = (r <~ parseColorValue a ;; g <~ parseColorValue b ;; u <~ parseColorValue c ;; Ret (Some (r, g, u, 255%Z)))).
  { intros a b c Ha Na Nb Nc. unfold parseSVGColor. rewrite toLower_low by exact Ha.
    set (body := ((a ++ "," ++ b ++ "," ++ c) ++ ")")%string).
    change (low_case ("rgb(" ++ body)) with (String "r" (String "g" (String "b" (String "(" (low_case body))))).
    change (hasPrefix (String "r" (String "g" (String "b" (String "(" (low_case body))))) "url") with false. cbn iota.
    change (String.eqb (String "r" (String "g" (String "b" (String "(" (low_case body))))) "none") with false. cbn iota.
    rewrite no_name_in by reflexivity. cbv zeta. rewrite trimPrefix_app.
    destruct (String.eqb body ("rgb(" ++ body)) eqn:He.
    { apply String.eqb_eq in He. apply (f_equal len) in He. rewrite len_app in He. cbn in He. lia. }
    cbn [negb]. unfold body. rewrite trimSuffix_app.
    change ("," ++ b ++ "," ++ c)%string with (String "," (b ++ String "," c)).
    rewrite split1_cons, split1_cons, split1_none by assumption. reflexivity. }
  intros Ha [->|[(t & -> & Ht)|[(b & c & -> & Nb & Nc)|[(a & n & c & -> & Ca & Nc)|(a & n & b & m & -> & Ca & Cb)]]]].
  - unfold parseSVGColor. rewrite toLower_low by reflexivity. cbn.
    destruct (colorname E "") as [v|] eqn:Hn; [|reflexivity]. apply Hnames in Hn as (_ & _ & _ & Hn). contradiction.
  - rewrite hash_start by exact Ha. unfold parseSVGColorNum.
    replace (trimPrefix (String "#" t) "#") with t by (symmetry; apply (trimPrefix_app "#" t)).
    destruct t as [|x [|y [|z t]]]; [reflexivity..|cbn in Ht; lia].
  - replace ("rgb(," ++ b ++ "," ++ c ++ ")")%string with ("rgb(" ++ ("" ++ "," ++ b ++ "," ++ c) ++ ")")%string
      in * by (cbn; rewrite !sapp_assoc; reflexivity).
    rewrite Hrgb by auto. reflexivity.
  - replace ("rgb(" ++ a ++ ",," ++ c ++ ")")%string with ("rgb(" ++ (a ++ "," ++ "" ++ "," ++ c) ++ ")")%string
      in * by (cbn; rewrite !sapp_assoc; reflexivity).
    pose proof (component_chars _ _ Ca) as (Na & _).
    rewrite Hrgb by auto. rewrite (component_value _ _ Ca). reflexivity.
  - replace ("rgb(" ++ a ++ "," ++ b ++ ",)")%string with ("rgb(" ++ (a ++ "," ++ b ++ "," ++ "") ++ ")")%string
      in * by (cbn; rewrite !sapp_assoc; cbn; rewrite !sapp_assoc; reflexivity).
    pose proof (component_chars _ _ Ca) as (Na & _). pose proof (component_chars _ _ Cb) as (Nb & _).
    rewrite Hrgb by auto. rewrite (component_value _ _ Ca), (component_value _ _ Cb). reflexivity.
Qed.
End Colours.

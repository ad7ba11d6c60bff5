(** * ProofsValid2: colours, references and lists of words (C74) *)
From Coq Require Import ZArith Lia.
From Verif Require Import ProofsStr ProofsUnit ProofsColor ProofsStyle ProofsMistake ProofsMistake2 ProofsTrans ProofsMeasure ProofsData.
From Verif Require Export ProofsValid1.
Local Open Scope nat_scope.

Lemma chars_app p a b : all_chars p (a ++ b) = true -> all_chars p a = true /\ all_chars p b = true.
Proof. rewrite all_chars_app. apply andb_prop. Qed.
Lemma chars_imp (p q : ascii -> bool) s : (forall c, p c = true -> q c = true) -> all_chars p s = true -> all_chars q s = true.
Proof. apply all_chars_imp. Qed.
Lemma lacks_split d s : lacks d s = true \/ exists a b, s = (a ++ String d b)%string /\ lacks d a = true.
Proof.
  unfold lacks. induction s as [|c s IH]; [left; reflexivity|]. cbn [all_chars]. destruct (Ascii.eqb_spec c d) as [->|Hc].
  - right. exists ""%string, s. auto.
  - destruct IH as [H|(a & b & -> & H)]; [left; exact H|]. right. exists (String c a), b. split; [reflexivity|]. cbn [all_chars]. apply Ascii.eqb_neq in Hc. rewrite Hc. exact H.
Qed.

(** ** Pieces and words *)
Lemma split_pieces d s : exists p ps, split1 d s = p :: ps
  /\ (exists b, s = (p ++ b)%string /\ lacks d p = true /\ (b = ""%string \/ exists b', b = String d b'))
  /\ Forall (fun q => exists a b, s = (a ++ q ++ b)%string /\ lacks d q = true /\ ends_with (Ascii.eqb d) a = true /\ (b = ""%string \/ exists b', b = String d b')) ps.
Proof.
  induction s as [|c s (p & ps & Hs & (b & Eb & Hl & Hb) & Hp)].
  - exists ""%string, []. split; [reflexivity|]. split; [exists ""%string; auto|constructor].
  - cbn [split1]. rewrite Hs.
    assert (K : Forall (fun q => exists a b, String c s = (a ++ q ++ b)%string /\ lacks d q = true /\ ends_with (Ascii.eqb d) a = true /\ (b = ""%string \/ exists b', b = String d b')) ps).
    { eapply Forall_impl; [|exact Hp]. intros q (a & b1 & -> & H1 & H2 & H3). exists (String c a), b1. split; [reflexivity|]. split; [exact H1|]. split; [|exact H3]. destruct a; [discriminate|exact H2]. }
    destruct (Ascii.eqb_spec c d) as [->|Hc].
    + exists ""%string, (p :: ps). split; [reflexivity|]. split; [exists (String d s); split; [reflexivity|]; split; [reflexivity|]; right; eauto|].
      constructor; [|exact K]. exists (String d ""), b. split; [rewrite Eb; reflexivity|]. split; [exact Hl|]. split; [cbn; apply Ascii.eqb_refl|exact Hb].
    + exists (String c p), ps. split; [reflexivity|]. split; [|exact K]. exists b. split; [rewrite Eb; reflexivity|]. split; [|exact Hb].
      unfold lacks in *. cbn [all_chars]. apply Ascii.eqb_neq in Hc. rewrite Hc. exact Hl.
Qed.
Lemma split_in d s p : List.In p (split1 d s) <-> piece_of d s p.
Proof.
  split.
  - intros H. destruct (split_pieces d s) as (q & qs & Hs & (b & Eb & Hl & Hb) & Hq). rewrite Hs in H. destruct H as [<-|H].
    + exists ""%string, b. auto.
    + rewrite Forall_forall in Hq. destruct (Hq p H) as (a & b1 & H1 & H2 & H3 & H4). exists a, b1. auto.
  - intros (a & b & -> & H1 & H2 & H3). apply (piece_in d p b H1 H3 a H2).
Qed.
Lemma fields_words p w s : forall cur, all_chars (fun c => negb (p c)) cur = true -> List.In w (fields_acc p cur s) ->
  (exists w1 b, s = (w1 ++ b)%string /\ w = (cur ++ w1)%string /\ w <> ""%string /\ all_chars (fun c => negb (p c)) w = true /\ match b with EmptyString => True | String c _ => p c = true end)
  \/ (exists a b, s = (a ++ w ++ b)%string /\ w <> ""%string /\ all_chars (fun c => negb (p c)) w = true /\ ends_with p a = true /\ match b with EmptyString => True | String c _ => p c = true end).
Proof.
  induction s as [|c s IH]; intros cur Hcur H; cbn [fields_acc] in H.
  - destruct cur as [|x cur]; cbn in H; [destruct H|]. destruct H as [<-|[]]. left. exists ""%string, ""%string. split; [reflexivity|]. split; [symmetry; apply sapp_nil_r|]. split; [discriminate|]. auto.
  - destruct (p c) eqn:Hc.
    + assert (K : List.In w (fields_acc p "" s) -> exists a b, String c s = (a ++ w ++ b)%string /\ w <> ""%string /\ all_chars (fun c => negb (p c)) w = true /\ ends_with p a = true /\ match b with EmptyString => True | String c _ => p c = true end).
      { intros K. destruct (IH ""%string eq_refl K) as [(w1 & b & -> & -> & H1 & H2 & H3)|(a & b & -> & H1 & H2 & H3 & H4)].
        - exists (String c ""), b. auto.
        - exists (String c a), b. split; [reflexivity|]. repeat split; auto. destruct a; [discriminate|exact H3]. }
      destruct cur as [|x cur]; cbn [String.length Nat.eqb] in H; [right; exact (K H)|]. destruct H as [<-|H]; [|right; exact (K H)].
      left. exists ""%string, (String c s). split; [reflexivity|]. split; [symmetry; apply sapp_nil_r|]. split; [discriminate|]. auto.
    + destruct (IH (cur ++ String c "")%string) as [(w1 & b & -> & -> & H1 & H2 & H3)|(a & b & -> & H1 & H2 & H3 & H4)]; [|exact H| |].
      * rewrite all_chars_app, Hcur. cbn. rewrite Hc. reflexivity.
      * left. exists (String c w1), b. rewrite sapp_assoc in *. auto.
      * right. exists (String c a), b. split; [reflexivity|]. repeat split; auto. destruct a; [discriminate|exact H3].
Qed.
Lemma fields_iff p s w : List.In w (fieldsFunc p s) <-> word_of p s w.
Proof.
  unfold fieldsFunc. split.
  - intros H. destruct (fields_words p w s ""%string eq_refl H) as [(w1 & b & -> & -> & H1 & H2 & H3)|(a & b & -> & H1 & H2 & H3 & H4)].
    + exists ""%string, b. cbn [append] in *. auto 9.
    + exists a, b. auto 9.
  - intros (a & b & -> & H1 & H2 & H3 & H4). apply fields_in; auto. destruct H3 as [->|H3]; auto.
Qed.

(** ** References *)
Lemma selector_iff v : rets (parseSelector v) <-> valid_selector v.
Proof.
  split.
  - intros (id & H). destruct (String.eqb_spec v "") as [->|H1]; [left; reflexivity|]. destruct (String.eqb_spec v "none") as [->|H2]; [right; left; reflexivity|].
    assert (N : ~ bad_selector v) by (intros B; exact (nc_selector v B id H)).
    destruct (hasPrefix v "url(") eqn:Hp; [|destruct N; apply bs_no_url; assumption]. apply prefix_iff in Hp as (t & ->).
    destruct (lacks_split ")" t) as [Hl|(s & r & -> & Hl)]; [destruct N; apply bs_open, Hl|].
    destruct (hasPrefix s "#") eqn:Hs; [|destruct N; apply (bs_no_id s r); assumption]. apply prefix_iff in Hs as (id' & ->).
    right. right. exists id', r. split; [reflexivity|]. exact Hl.
  - intros [->|[->|(id & r & -> & Hl)]]; [eexists; reflexivity|eexists; reflexivity|]. unfold parseSelector, rets.
    set (s := ("#" ++ id)%string). assert (Hs : lacks ")" s = true) by exact Hl.
    change ("url(#" ++ id ++ ")" ++ r)%string with ("url(" ++ s ++ ")" ++ r)%string.
    change (hasPrefix ("url(" ++ s ++ ")" ++ r) "url(") with (hasPrefix (s ++ ")" ++ r) "").
    replace (hasPrefix (s ++ ")" ++ r) "") with true by (destruct s; reflexivity).
    change ((String.length ("url(" ++ s ++ ")" ++ r) =? 0) || String.eqb ("url(" ++ s ++ ")" ++ r) "none") with false. cbv iota.
    replace ("url(" ++ s ++ ")" ++ r)%string with (("url(" ++ s) ++ ")" ++ r)%string by reflexivity. rewrite index_at by exact Hs.
    rewrite (slice_mid "url(" s (")" ++ r)); [|reflexivity|reflexivity]. cbn [obind]. change (hasPrefix s "#") with (hasPrefix id ""). replace (hasPrefix id "") with true by (destruct id; reflexivity). cbn [negb].
    rewrite (slice_tail "#" id); [eauto|reflexivity|reflexivity].
Qed.

(** ** Colours *)
Lemma go_iff (neg : bool) d t : decimal d = true ->
  match d with EmptyString => Err (ErrNumber t)
  | _ => match dec_digits d 0%Z with None => Err (ErrNumber t)
         | Some n => let v := if neg then (- n)%Z else n in if ((int64_min <=? v) && (v <=? int64_max))%Z then Ret v else Err (ErrNumber t) end end
  = if ((int64_min <=? (if neg then - dec_val d else dec_val d)) && ((if neg then - dec_val d else dec_val d) <=? int64_max))%Z then Ret (if neg then - dec_val d else dec_val d)%Z else Err (ErrNumber t).
Proof.
  unfold decimal. intros H. apply andb_prop in H as [Hd Hne]. pose proof (dec_digits_val d Hd 0%Z) as Hv. fold (dec_val d) in Hv. destruct d as [|c d]; [discriminate|]. rewrite Hv. reflexivity.
Qed.
Lemma atoi_sign sg d : List.In sg [""; "+"; "-"]%string -> decimal d = true ->
  (rets (atoi (sg ++ d)) <-> (- 2 ^ 63 <= (if String.eqb sg "-" then - dec_val d else dec_val d) < 2 ^ 63)%Z).
Proof.
  intros Hs Hd. assert (K : exists t, atoi (sg ++ d) = if ((int64_min <=? (if String.eqb sg "-" then - dec_val d else dec_val d)) && ((if String.eqb sg "-" then - dec_val d else dec_val d) <=? int64_max))%Z then Ret (if String.eqb sg "-" then - dec_val d else dec_val d)%Z else Err (ErrNumber t)).
  { cbn in Hs. destruct Hs as [<-|[<-|[<-|[]]]]; cbn [append].
    - exists d. refine (eq_trans _ (go_iff false d d Hd)). unfold decimal in Hd. apply andb_prop in Hd as [Hd _]. destruct d as [|c d]; [reflexivity|]. cbn [all_chars] in Hd. apply andb_prop in Hd as [Hc _].
      apply digit_cases in Hc. cbn in Hc. repeat (destruct Hc as [<-|Hc]; [reflexivity|]). destruct Hc.
    - eexists. exact (go_iff false d (String "+" d) Hd).
    - eexists. exact (go_iff true d (String "-" d) Hd). }
  destruct K as (t & ->). unfold int64_min, int64_max, rets. set (z := if String.eqb sg "-" then _ else _).
  destruct (Z.leb_spec (- 2 ^ 63) z), (Z.leb_spec z (2 ^ 63 - 1)); cbn [andb]; split; intros Q; try lia; try (destruct Q; discriminate); eauto.
Qed.
Lemma atoi_iff w : rets (atoi w) <-> valid_integer w.
Proof.
  split.
  - intros H. pose proof H as (n & Hn). apply atoi_ret in Hn as (sg & d & -> & Hs & Hne & Hd).
    assert (D : decimal d = true). { unfold decimal. unfold digits in Hd. rewrite Hd. apply String.eqb_neq in Hne. rewrite Hne. reflexivity. }
    exists sg, d. split; [reflexivity|]. split; [exact Hs|]. split; [exact D|]. apply (atoi_sign sg d Hs D), H.
  - intros (sg & d & -> & Hs & D & H). apply (atoi_sign sg d Hs D), H.
Qed.
(** the characters of a value of rgb() *)
Definition comp_char (c : ascii) : bool := is_blank c || is_digit c || Ascii.eqb c "+" || Ascii.eqb c "-".
Lemma int_chars b w : padded b w -> valid_integer w -> all_chars comp_char b = true.
Proof.
  intros (l & r & -> & Hl & Hr & _ & _) (sg & d & -> & Hs & D & _). unfold decimal in D. apply andb_prop in D as [D _]. rewrite !all_chars_app.
  assert (B : forall s, blank s = true -> all_chars comp_char s = true) by (intros s; apply all_chars_imp; intros c Hc; unfold comp_char; rewrite Hc; reflexivity).
  rewrite (B l Hl), (B r Hr). replace (all_chars comp_char d) with true by (symmetry; revert D; apply all_chars_imp; intros c Hc; unfold comp_char; rewrite Hc; destruct (is_blank c); reflexivity).
  cbn in Hs. destruct Hs as [<-|[<-|[<-|[]]]]; reflexivity.
Qed.
Lemma last_char (v : string) : v = ""%string \/ exists b c, v = (b ++ String c "")%string.
Proof.
  induction v as [|a v [->|(b & c & ->)]]; [left; reflexivity|right; exists ""%string, a; reflexivity|]. right. exists (String a b), c. reflexivity.
Qed.
Lemma component_iff v : all_chars is_ascii v = true -> (rets (parseColorValue v) <-> valid_component v).
Proof.
  intros Ha. destruct (last_char v) as [->|(b & c & ->)].
  - split; [intros (z & H); discriminate|]. intros (b & p & w & Hb & Hp & Hw & Hi). destruct b; [|discriminate]. destruct Hw as (l & r & Hw & _). destruct l; [|discriminate]. destruct w; [|discriminate].
    destruct Hi as (sg & d & Hd & _ & D & _). destruct sg; [|discriminate]. cbn in Hd. subst d. discriminate.
  - unfold parseColorValue. rewrite len_app. cbn [String.length]. rewrite Nat.add_1_r. rewrite byteat_last. cbn [obind].
    destruct (chars_app _ _ _ Ha) as [Hb _].
    destruct (Ascii.eqb_spec c "%") as [->|Hc].
    + replace (S (String.length b) - 1) with (String.length b) by lia. 
      assert (Hsl : slice (b ++ "%") 0 (String.length b) = Ret b) by (apply (slice_mid "" b "%" 0 (String.length b)); reflexivity). rewrite Hsl. cbn [obind].
      transitivity (rets (atoi (trimSpace b))). { unfold rets. destruct (atoi _); cbn; split; intros (z & H); try discriminate; eauto. }
      rewrite atoi_iff. split.
      * intros H. exists b, "%"%string, (trimSpace b). repeat split; [right; left; reflexivity|apply padded_ex, Hb|exact H].
      * intros (b' & p & w & Eb & Hp & Hw & Hi). cbn in Hp. destruct Hp as [<-|[<-|[]]].
        -- rewrite sapp_nil_r in Eb. subst b'. apply int_chars in Hw; [|exact Hi]. apply chars_app in Hw as [_ Hw]. discriminate.
        -- apply (f_equal (fun s => trimSuffix s "%")) in Eb. rewrite !trimSuffix_app in Eb. subst b'. rewrite (padded_trim _ _ Hw). exact Hi.
    + transitivity (rets (atoi (trimSpace (b ++ String c "")))). { unfold rets. destruct (atoi _); cbn; split; intros (z & H); try discriminate; eauto. }
      rewrite atoi_iff. split.
      * intros H. exists (b ++ String c "")%string, ""%string, (trimSpace (b ++ String c "")). repeat split; [symmetry; apply sapp_nil_r|left; reflexivity|apply padded_ex, Ha|exact H].
      * intros (b' & p & w & Eb & Hp & Hw & Hi). cbn in Hp. destruct Hp as [<-|[<-|[]]].
        -- rewrite sapp_nil_r in Eb. subst b'. rewrite (padded_trim _ _ Hw). exact Hi.
        -- apply ends_one in Eb; [|discriminate]. cbn in Eb. apply Ascii.eqb_eq in Eb. congruence.
Qed.
Lemma hex_same c : hex_digit c = hex_val c.
Proof. destruct c as [[] [] [] [] [] [] [] []]; reflexivity. Qed.
Lemma uint_iff a b : rets (parseUint16_8 (String a (String b ""))) <-> hex a /\ hex b.
Proof.
  unfold parseUint16_8, hex, rets. cbn [hex_digits]. rewrite !hex_same.
  destruct (hex_val a) as [x|] eqn:Hx; [|split; [intros (z & H); discriminate|intros [H _]; congruence]].
  destruct (hex_val b) as [y|] eqn:Hy; [|split; [intros (z & H); discriminate|intros [_ H]; congruence]].
  apply hex_cases in Hx as (_ & _ & Hx & _). apply hex_cases in Hy as (_ & _ & Hy & _).
  match goal with |- context [(?n <=? 255)%Z] => replace (n <=? 255)%Z with true by (symmetry; apply Z.leb_le; lia) end.
  split; [intros _; split; discriminate|eauto].
Qed.
Lemma rets_bind {A B} (o : outcome A) (k : A -> outcome B) Q : (forall a, o = Ret a -> (rets (k a) <-> Q)) -> (rets (obind o k) <-> rets o /\ Q).
Proof.
  intros H. unfold rets in *. destruct o as [a|e| |]; cbn; try (split; [intros (? & ?); discriminate|intros ((? & ?) & _); discriminate]).
  rewrite (H a eq_refl). split; [eauto|tauto].
Qed.
Lemma three_iff (a b c d e f : ascii) : rets (
  s0 <~ slice (string_of_list_ascii [a; b; c; d; e; f]) 0 2 ;; s1 <~ slice (string_of_list_ascii [a; b; c; d; e; f]) 2 4 ;; s2 <~ slice (string_of_list_ascii [a; b; c; d; e; f]) 4 6 ;;
  r <~ parseUint16_8 s0 ;; g <~ parseUint16_8 s1 ;; bl <~ parseUint16_8 s2 ;; Ret (r, g, bl))%go <-> (hex a /\ hex b) /\ (hex c /\ hex d) /\ (hex e /\ hex f).
Proof.
  cbn [string_of_list_ascii]. unfold slice. cbn [String.length Nat.leb andb String.substring Nat.sub obind].
  rewrite <- !uint_iff. repeat (apply rets_bind; intros ? _).
  transitivity (rets (parseUint16_8 (String e (String f ""))) /\ True); [apply rets_bind; intros x _; split; [trivial|intros _; eexists; reflexivity]|tauto].
Qed.
Lemma num_iff s : rets (parseSVGColorNum (String "#" s)) <-> (String.length s = 6 /\ Forall hex (list_ascii_of_string s))
  \/ (exists a b c r, s = String a (String b (String c r)) /\ String.length r <> 3 /\ hex a /\ hex b /\ hex c).
Proof.
  unfold parseSVGColorNum. change (String "#" s) with ("#" ++ s)%string. rewrite trimPrefix_app. cbv zeta.
  destruct (Nat.eqb_spec (String.length s) 6) as [H6|H6].
  - cbn [obind]. destruct s as [|a [|b [|c [|d [|e [|f [|]]]]]]]; try discriminate H6.
    change (String a (String b (String c (String d (String e (String f "")))))) with (string_of_list_ascii [a; b; c; d; e; f]). rewrite three_iff. rewrite list_ascii_of_string_of_list_ascii. split.
    + intros ((H1 & H2) & (H3 & H4) & H5 & H7). left. split; [reflexivity|]. repeat (constructor; [assumption|]). constructor.
    + intros [(_ & H)|(x & y & z & r & H & Hr & _)].
      * repeat match goal with H : Forall _ (_ :: _) |- _ => inversion H; subst; clear H end. auto.
      * injection H as _ _ _ H. subst r. destruct Hr. reflexivity.
  - destruct s as [|a [|b [|c r]]]; cbn [byteat String.get obind].
    + split; [intros (z & H); discriminate|]. intros [(H & _)|(x & y & z & r & H & _)]; [contradiction|discriminate].
    + split; [intros (z & H); discriminate|]. intros [(H & _)|(x & y & z & r & H & _)]; [contradiction|discriminate].
    + split; [intros (z & H); discriminate|]. intros [(H & _)|(x & y & z & r & H & _)]; [contradiction|discriminate].
    + rewrite three_iff. split.
      * intros ((H1 & _) & (H2 & _) & H3 & _). right. exists a, b, c, r. split; [reflexivity|]. split; [|auto]. intros Hr. cbn in H6. lia.
      * intros [(H & _)|(x & y & z & q & H & _ & H1 & H2 & H3)]; [contradiction|]. injection H as -> -> -> ->. auto.
Qed.
Section Colour.
Context {E : Env}.
Lemma colour_iff v : all_chars is_ascii v = true -> (rets (parseSVGColor (E := E) v) <-> valid_colour E v).
Proof.
  intros Ha. unfold parseSVGColor, valid_colour. rewrite toLower_low by exact Ha. cbv zeta.
  destruct (hasPrefix (low_case v) "url") eqn:H1; [split; [auto|intros _; eexists; reflexivity]|].
  destruct (String.eqb_spec (low_case v) "none") as [H2|H2]; [split; [auto|intros _; eexists; reflexivity]|].
  destruct (colorname E (low_case v)) as [[[[r g] b] al]|] eqn:H3; [split; [intros _; right; right; left; discriminate|intros _; eexists; reflexivity]|].
  destruct (hasPrefix v "rgb(") eqn:Hp.
  - apply prefix_iff in Hp as (s & ->). rewrite trimPrefix_app. replace (String.eqb s ("rgb(" ++ s)) with false.
    2:{ symmetry. apply String.eqb_neq. intros H. apply (f_equal String.length) in H. cbn in H. lia. }
    cbn [negb]. change (all_chars is_ascii s = true) in Ha.
    transitivity (exists a b c p, s = (a ++ "," ++ b ++ "," ++ c ++ p)%string /\ List.In p [""; ")"]%string /\ valid_component a /\ valid_component b /\ valid_component c).
    + split.
      * intros (z & H). destruct (split1 "," (trimSuffix s ")")) as [|v0 [|v1 [|v2 [|]]]] eqn:Hs; try discriminate.
        pose proof (split1_join _ _ _ Hs) as Hj. cbn in Hj.
        assert (Es : exists p, s = (v0 ++ "," ++ v1 ++ "," ++ v2 ++ p)%string /\ List.In p [""; ")"]%string).
        { destruct (hasSuffix s ")") eqn:Hx.
          - apply suffix_iff in Hx as (q & ->). rewrite trimSuffix_app in Hj. exists ")"%string. split; [|right; left; reflexivity]. rewrite Hj, !sapp_assoc. cbn. rewrite !sapp_assoc. reflexivity.
          - unfold trimSuffix in Hj. rewrite Hx in Hj. exists ""%string. split; [|left; reflexivity]. rewrite sapp_nil_r. exact Hj. }
        destruct Es as (p & -> & Hin). apply chars_app in Ha as [A0 Ha]. apply chars_app in Ha as [_ Ha]. apply chars_app in Ha as [A1 Ha]. apply chars_app in Ha as [_ Ha]. apply chars_app in Ha as [A2 _].
        exists v0, v1, v2, p. split; [reflexivity|]. split; [exact Hin|]. rewrite <- !component_iff by assumption.
        destruct (parseColorValue v0) eqn:E0; try discriminate. destruct (parseColorValue v1) eqn:E1; try discriminate. destruct (parseColorValue v2) eqn:E2; try discriminate.
        repeat split; eexists; reflexivity.
      * intros (a & b & c & p & -> & Hin & Va & Vb & Vc).
        apply chars_app in Ha as [A0 Ha]. apply chars_app in Ha as [_ Ha]. apply chars_app in Ha as [A1 Ha]. apply chars_app in Ha as [_ Ha]. apply chars_app in Ha as [A2 _].
        assert (K : forall s, valid_component s -> all_chars (fun c => comp_char c || Ascii.eqb c "%") s = true).
        { intros s (b' & q & w & -> & Hq & Hw & Hi). rewrite all_chars_app. replace (all_chars _ b') with true. 2:{ symmetry. generalize (int_chars _ _ Hw Hi). apply all_chars_imp. intros x ->. reflexivity. }
          cbn in Hq. destruct Hq as [<-|[<-|[]]]; reflexivity. }
        assert (L : forall s, valid_component s -> no_char "," s = true).
        { intros s Hs. generalize (K s Hs). apply all_chars_imp. intros x Hx. destruct (Ascii.eqb_spec x ",") as [->|]; [discriminate|reflexivity]. }
        assert (T : trimSuffix (a ++ "," ++ b ++ "," ++ c ++ p) ")" = (a ++ "," ++ b ++ "," ++ c)%string).
        { cbn in Hin. destruct Hin as [<-|[<-|[]]].
          - rewrite sapp_nil_r. unfold trimSuffix. replace (hasSuffix _ ")") with false; [reflexivity|]. symmetry. apply suffix_no. intros q Hq.
            apply (f_equal (all_chars (fun c => (comp_char c || Ascii.eqb c "%") || Ascii.eqb c ","))) in Hq. rewrite !all_chars_app in Hq.
            assert (K' : forall s, valid_component s -> all_chars (fun c => (comp_char c || Ascii.eqb c "%") || Ascii.eqb c ",") s = true).
            { intros s Hs. generalize (K s Hs). apply all_chars_imp. intros x ->. reflexivity. }
            rewrite (K' a Va), (K' b Vb), (K' c Vc) in Hq. cbn in Hq. destruct (all_chars _ q); discriminate.
          - replace (a ++ "," ++ b ++ "," ++ c ++ ")")%string with ((a ++ "," ++ b ++ "," ++ c) ++ ")")%string; [apply trimSuffix_app|]. cbn [append]; rewrite ?sapp_assoc; cbn [append]; rewrite ?sapp_assoc; cbn [append]; rewrite ?sapp_assoc; reflexivity. }
        rewrite T. cbn [append]. rewrite !split1_cons by (apply L; assumption). rewrite split1_none by (apply L; assumption).
        apply component_iff in Va as (x & ->); [|exact A0]. apply component_iff in Vb as (y & ->); [|exact A1]. apply component_iff in Vc as (z & ->); [|exact A2]. eexists. reflexivity.
    + split.
      * intros (a & b & c & p & -> & H). right. right. right. left. exists a, b, c, p. split; [reflexivity|exact H].
      * intros [H|[H|[H|[(a & b & c & p & H & K)|[(q & H & _)|(a & b & c & r & H & _)]]]]]; try discriminate; try congruence.
        injection H as ->. exists a, b, c, p. split; [reflexivity|exact K].
  - unfold trimPrefix. rewrite Hp, String.eqb_refl. cbn [negb]. destruct v as [|k s].
    { split; [intros (z & H); discriminate|]. intros [H|[H|[H|[(a & b & c & p & H & K)|[(q & H & _)|(a & b & c & r & H & _)]]]]]; try discriminate; congruence. }
    cbn [byteat String.get obind]. destruct (Ascii.eqb_spec k "#") as [->|Hk].
    + transitivity (rets (parseSVGColorNum (String "#" s))).
      { unfold rets. destruct (parseSVGColorNum _) as [[[x y] z]|e| |]; cbn; split; intros (q & H); try discriminate; eauto. }
      rewrite num_iff. split.
      * intros [(H & K)|(a & b & c & r & -> & H)]; right; right; right; right; [left; exists s; auto|right; exists a, b, c, r; auto].
      * intros [H|[H|[H|[(a & b & c & p & H & K)|[(q & H & K)|(a & b & c & r & H & K)]]]]]; try discriminate; try congruence.
        -- injection H as ->. left. exact K.
        -- injection H as ->. right. exists a, b, c, r. auto.
    + split; [intros (z & H); discriminate|]. intros [H|[H|[H|[(a & b & c & p & H & K)|[(q & H & _)|(a & b & c & r & H & _)]]]]]; try discriminate; try congruence.
      rewrite H in Hp. rewrite hasPrefix_app in Hp. discriminate.
Qed.
End Colour.

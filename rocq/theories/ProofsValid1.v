(** * ProofsValid1: which texts are read as values (C74) *)
From Coq Require Import ZArith Lia.
From Verif Require Import ProofsStr ProofsUnit ProofsColor ProofsStyle ProofsMistake ProofsTrans ProofsMeasure ProofsData.
From Verif Require Export SpecValid.
Local Open Scope nat_scope.

(** ** Blanks around a text *)
Lemma strip_left s : exists l t, s = (l ++ t)%string /\ blank l = true /\ match t with String c _ => is_blank c = false | EmptyString => True end.
Proof.
  induction s as [|c s (l & t & -> & Hl & Ht)]; [exists ""%string, ""%string; auto|]. destruct (is_blank c) eqn:Hc.
  - exists (String c l), t. split; [reflexivity|]. split; [|exact Ht]. unfold blank in *. cbn [all_chars]. rewrite Hc. exact Hl.
  - exists ""%string, (String c (l ++ t)). auto.
Qed.
Lemma strip_right s : exists w r, s = (w ++ r)%string /\ blank r = true /\ ends_with is_blank w = false.
Proof.
  induction s as [|c s (w & r & -> & Hr & Hw)]; [exists ""%string, ""%string; auto|]. destruct w as [|a w].
  - destruct (is_blank c) eqn:Hc.
    + exists ""%string, (String c r). split; [reflexivity|]. split; [|reflexivity]. unfold blank in *. cbn [all_chars]. rewrite Hc. exact Hr.
    + exists (String c ""), r. auto.
  - exists (String c (String a w)), r. split; [reflexivity|]. split; [exact Hr|exact Hw].
Qed.
Lemma padded_ex v : all_chars is_ascii v = true -> padded v (trimSpace v).
Proof.
  intros Ha. assert (H : exists w, padded v w); [|destruct H as (w & H); rewrite (padded_trim _ _ H); exact H].
  destruct (strip_left v) as (l & t & -> & Hl & Ht). destruct (strip_right t) as (w & r & -> & Hr & Hw).
  rewrite !all_chars_app in Ha. apply andb_prop in Ha as [_ Ha]. apply andb_prop in Ha as [Ha _].
  exists w, l, r. split; [reflexivity|]. split; [exact Hl|]. split; [exact Hr|]. split; [|exact Ha]. unfold no_blank_end. rewrite Hw.
  destruct w as [|c w]; [reflexivity|]. cbn in Ht |- *. rewrite Ht. reflexivity.
Qed.
Lemma padded_iff v w : all_chars is_ascii v = true -> (padded v w <-> trimSpace v = w).
Proof. intros Ha. split; [apply padded_trim|]. intros <-. apply padded_ex, Ha. Qed.
Lemma padded_both v w : padded v w -> all_chars is_ascii w = true.
Proof. intros (l & r & _ & _ & _ & _ & H). exact H. Qed.
Lemma padded_self w : all_chars is_ascii w = true -> no_blank_end w = true -> padded w w.
Proof. intros Ha Hw. exists ""%string, ""%string. rewrite sapp_nil_r. auto. Qed.
Lemma trim_trim v : all_chars is_ascii v = true -> trimSpace (trimSpace v) = trimSpace v.
Proof. intros Ha. destruct (padded_ex v Ha) as (l & r & _ & _ & _ & H1 & H2). apply padded_trim, padded_self; assumption. Qed.
Lemma trim_ascii v : all_chars is_ascii v = true -> all_chars is_ascii (trimSpace v) = true.
Proof. intros Ha. exact (padded_both _ _ (padded_ex v Ha)). Qed.

(** ** Lengths *)
Lemma last_two (m p : string) a b c d : (m ++ String a (String b "") = p ++ String c (String d ""))%string -> a = c /\ b = d.
Proof.
  revert p. induction m as [|x m IH]; intros p H; destruct p as [|y p].
  - injection H. auto.
  - apply (f_equal String.length) in H. cbn in H. rewrite len_app in H. cbn in H. lia.
  - apply (f_equal String.length) in H. cbn in H. rewrite len_app in H. cbn in H. lia.
  - injection H as _ H. exact (IH _ H).
Qed.
Lemma ends_one (m p : string) a q : q <> ""%string -> (m ++ String a "" = p ++ q)%string -> ends_with (Ascii.eqb a) q = true.
Proof. intros Hq H. apply (f_equal (ends_with (Ascii.eqb a))) in H. rewrite !ends_app in H by (assumption || discriminate). rewrite <- H. cbn. apply Ascii.eqb_refl. Qed.
Lemma suffix_no t x : hasSuffix t x = false <-> forall p, t <> (p ++ x)%string.
Proof.
  pose proof (suffix_iff t x) as H. destruct (hasSuffix t x); split; intros K; try discriminate; try reflexivity.
  - destruct (proj1 H eq_refl) as (p & ->). destruct (K p eq_refl).
  - intros p ->. assert (Q : false = true) by (apply H; eauto). discriminate.
Qed.
Lemma units_apart m u v : u <> UNone -> v <> UNone -> u <> v -> hasSuffix (m ++ unit_text u) (unit_text v) = false.
Proof.
  intros Hu Hv Huv. apply suffix_no. intros p H.
  destruct u, v; try congruence; cbn [unit_text] in H;
    first [ apply last_two in H; destruct H as [H1 H2]; discriminate
          | apply ends_one in H; [discriminate H|discriminate]
          | symmetry in H; apply ends_one in H; [discriminate H|discriminate] ].
Qed.
Lemma digits_iff v w : all_chars is_ascii v = true -> (length_digits v w <-> snd (findUnit v) = w).
Proof.
  intros Ha. pose proof (padded_ex v Ha) as Hp. pose proof (padded_both _ _ Hp) as Ht. split.
  - intros H. destruct H as [v m u w Hu H1 H2|v w H1 H2].
    + unfold findUnit. rewrite (padded_trim _ _ H1).
      pose proof (fun x Hx Hux => units_apart m u x Hu Hx Hux) as K.
      destruct u; try congruence; unfold findUnit_in, absoluteUnits;
        repeat match goal with
        | |- context [hasSuffix (m ++ unit_text ?u) ?s] =>
            first [ change s with (unit_text u); rewrite hasSuffix_app, trimSuffix_app; exact (padded_trim _ _ H2)
                  | first [change s with (unit_text UPx)|change s with (unit_text UCm)|change s with (unit_text UMm)|change s with (unit_text UPt)|change s with (unit_text UIn)|change s with (unit_text UQ)|change s with (unit_text UPc)|change s with (unit_text UPercent)];
                    rewrite K by discriminate; cbv iota ]
        end.
    + unfold findUnit. rewrite (padded_trim _ _ H1).
      assert (K : forall u, u <> UNone -> hasSuffix w (unit_text u) = false) by (intros u Hu; apply suffix_no; intros p; apply H2, Hu).
      unfold findUnit_in, absoluteUnits.
      pose proof (K UPx) as K1. pose proof (K UCm) as K2. pose proof (K UMm) as K3. pose proof (K UPt) as K4.
      pose proof (K UIn) as K5. pose proof (K UQ) as K6. pose proof (K UPc) as K7. pose proof (K UPercent) as K8. cbn [unit_text] in *.
      rewrite K1, K2, K3, K4, K5, K6, K7, K8 by discriminate. reflexivity.
  - intros <-. unfold findUnit. set (t := trimSpace v) in *. 
    assert (G : forall u x, u <> UNone -> x = unit_text u -> hasSuffix t x = true -> length_digits v (trimSpace (trimSuffix t x))).
    { intros u x Hu -> H. apply suffix_iff in H as (p & H). rewrite H, trimSuffix_app. apply (ld_unit v p u); [exact Hu|rewrite <- H; exact Hp|].
      apply padded_ex. rewrite H, all_chars_app in Ht. apply andb_prop in Ht. apply Ht. }
    unfold findUnit_in, absoluteUnits.
    destruct (hasSuffix t "px") eqn:E1; [apply (G UPx); auto; discriminate|]. destruct (hasSuffix t "cm") eqn:E2; [apply (G UCm); auto; discriminate|].
    destruct (hasSuffix t "mm") eqn:E3; [apply (G UMm); auto; discriminate|]. destruct (hasSuffix t "pt") eqn:E4; [apply (G UPt); auto; discriminate|].
    destruct (hasSuffix t "in") eqn:E5; [apply (G UIn); auto; discriminate|]. destruct (hasSuffix t "Q") eqn:E6; [apply (G UQ); auto; discriminate|].
    destruct (hasSuffix t "pc") eqn:E7; [apply (G UPc); auto; discriminate|]. destruct (hasSuffix t "%") eqn:E8; [apply (G UPercent); auto; discriminate|].
    cbn [snd]. apply ld_plain; [exact Hp|]. intros m u Hu. destruct u; try congruence; apply suffix_no; assumption.
Qed.

Section Values.
Context {E : Env}.
Definition rets {A} (o : outcome A) : Prop := exists a, o = Ret a.
Lemma unit_iff v : all_chars is_ascii v = true -> (rets (parseUnit (E := E) v) <-> valid_length E v).
Proof.
  intros Ha. pose proof (digits_iff v (snd (findUnit v)) Ha) as H. unfold parseUnit, rets, valid_length. split.
  - intros (a & K). exists (snd (findUnit v)). split; [apply H; reflexivity|]. destruct (findUnit v) as [u value]. cbn [snd]. destruct (parseFloat E value); congruence.
  - intros (w & Hw & Hf). apply (digits_iff v w Ha) in Hw. destruct (findUnit v) as [u value]. cbn [snd] in Hw. subst w. destruct (parseFloat E value); [eauto|congruence].
Qed.
Lemma float_iff v : all_chars is_ascii v = true -> (rets (parseBasicFloat (E := E) v) <-> valid_length E v).
Proof.
  intros Ha. rewrite <- (unit_iff v Ha). unfold parseBasicFloat, rets. destruct (parseUnit v) as [[x b]|e| |]; cbn; split; intros (a & K); try discriminate; eauto.
Qed.
Lemma resolve_iff vb v w : all_chars is_ascii v = true -> (rets (resolveUnit (E := E) vb v w) <-> valid_length E v).
Proof.
  intros Ha. rewrite <- (unit_iff v Ha). unfold resolveUnit, rets. destruct (parseUnit v) as [[x b]|e| |]; cbn; split; intros (a & K); try discriminate; eauto.
  destruct b; [destruct w|]; eauto.
Qed.
Lemma length_trim v : all_chars is_ascii v = true -> (valid_length E (trimSpace v) <-> valid_length E v).
Proof.
  intros Ha. rewrite <- (unit_iff v Ha), <- (unit_iff _ (trim_ascii v Ha)). unfold parseUnit, findUnit. rewrite (trim_trim v Ha). reflexivity.
Qed.
End Values.

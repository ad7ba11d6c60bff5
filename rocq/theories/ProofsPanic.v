(** * ProofsPanic: exactly when the parser panics (C76) *)
From Coq Require Import ZArith Lia.
From Verif Require Import ProofsGrad ProofsStr ProofsUnit ProofsColor ProofsStyle ProofsStyle2 ProofsAttrs ProofsMistake ProofsMistake2 ProofsMistake3 ProofsTrans ProofsTok ProofsFuel ProofsData ProofsEnd ProofsLocal.
From Verif Require Export SpecPanic ProofsValid4.
Local Open Scope go_scope.
Local Open Scope nat_scope.

Ltac sass := cbn [append]; rewrite ?sapp_assoc; cbn [append]; rewrite ?sapp_assoc; cbn [append]; rewrite ?sapp_assoc; reflexivity.
(** ** Colours *)
Lemma value_panic v : parseColorValue v = Panic <-> v = ""%string.
Proof. split; [apply parseColorValue_panic|intros ->; reflexivity]. Qed.
Lemma panic_bind {A B} (o : outcome A) (k : A -> outcome B) Q : (forall a, o = Ret a -> (k a = Panic <-> Q)) -> (obind o k = Panic <-> o = Panic \/ rets o /\ Q).
Proof.
  intros H. unfold rets. destruct o as [a|e| |]; cbn.
  - rewrite (H a eq_refl). split; [intros K; right; split; [eauto|exact K]|intros [K|[_ K]]; [discriminate|exact K]].
  - split; [discriminate|intros [K|((? & K) & _)]; discriminate].
  - tauto.
  - split; [discriminate|intros [K|((? & K) & _)]; discriminate].
Qed.
Lemma ends_lacks d c p : lacks d (c ++ p) = true -> lacks d c = true.
Proof. unfold lacks. rewrite all_chars_app. intros H. apply andb_prop in H. apply H. Qed.
Lemma split_lacks d s : Forall (fun p => lacks d p = true) (split1 d s).
Proof. apply Forall_forall. intros p H. apply split_in in H as (a & b & _ & H & _). exact H. Qed.
Lemma colour_panic {E : Env} v : all_chars is_ascii v = true -> (parseSVGColor (E := E) v = Panic <-> panic_colour E v).
Proof.
  intros Ha. unfold parseSVGColor, panic_colour. rewrite toLower_low by exact Ha. cbv zeta.
  destruct (hasPrefix (low_case v) "url") eqn:H1; [split; [discriminate|intros (K & _); discriminate]|].
  destruct (String.eqb_spec (low_case v) "none") as [H2|H2]; [split; [discriminate|intros (_ & K & _); contradiction]|].
  destruct (colorname E (low_case v)) as [[[[r g] b] al]|] eqn:H3; [split; [discriminate|intros (_ & _ & K & _); discriminate]|].
  assert (T : forall P Q : Prop, (P <-> Q) -> (P <-> false = false /\ low_case v <> "none"%string /\ @None (Z * Z * Z * Z) = None /\ Q)) by tauto. apply T. clear T.
  destruct (hasPrefix v "rgb(") eqn:Hp.
  - apply prefix_iff in Hp as (s & ->). rewrite trimPrefix_app. replace (String.eqb s ("rgb(" ++ s)) with false.
    2:{ symmetry. apply String.eqb_neq. intros H. apply (f_equal String.length) in H. cbn in H. lia. }
    cbn [negb]. change (all_chars is_ascii s = true) in Ha.
    assert (V : forall a b c, all_chars is_ascii a = true -> all_chars is_ascii b = true ->
      ((r <~ parseColorValue a ;; g <~ parseColorValue b ;; bl <~ parseColorValue c ;; Ret (Some (r, g, bl, 255%Z))) = Panic
       <-> (a = ""%string \/ valid_component a /\ b = ""%string \/ valid_component a /\ valid_component b /\ c = ""%string))).
    { intros a b c A0 A1. rewrite (panic_bind _ _ (b = ""%string \/ valid_component b /\ c = ""%string)).
      - rewrite value_panic, (component_iff a A0). tauto.
      - intros x _. rewrite (panic_bind _ _ (c = ""%string)); [rewrite value_panic, (component_iff b A1); tauto|].
        intros y _. rewrite (panic_bind _ _ False); [rewrite value_panic; tauto|]. intros z _. split; [discriminate|tauto]. }
    split.
    + intros H. destruct (split1 "," (trimSuffix s ")")) as [|v0 [|v1 [|v2 [|]]]] eqn:Hs; try discriminate.
      pose proof (split1_join _ _ _ Hs) as Hj. cbn in Hj. pose proof (split_lacks "," (trimSuffix s ")")) as L. rewrite Hs in L.
      inversion L as [|? ? L0 L']; subst. inversion L' as [|? ? L1 L'']; subst. inversion L'' as [|? ? L2 _]; subst.
      assert (Es : exists p, s = (v0 ++ "," ++ v1 ++ "," ++ v2 ++ p)%string /\ List.In p [""; ")"]%string).
      { destruct (hasSuffix s ")") eqn:Hx.
        - apply suffix_iff in Hx as (q & ->). rewrite trimSuffix_app in Hj. exists ")"%string. split; [|right; left; reflexivity]. rewrite Hj, !sapp_assoc. cbn. rewrite !sapp_assoc. reflexivity.
        - unfold trimSuffix in Hj. rewrite Hx in Hj. exists ""%string. split; [|left; reflexivity]. rewrite sapp_nil_r. exact Hj. }
      destruct Es as (p & -> & Hin). apply chars_app in Ha as [A0 Ha]. apply chars_app in Ha as [_ Ha]. apply chars_app in Ha as [A1 Ha].
      right. right. exists v0, v1, v2, p. split; [reflexivity|]. split; [exact Hin|]. split; [exact L0|]. split; [exact L1|]. split; [exact L2|]. apply (V v0 v1 v2 A0 A1). exact H.
    + intros [H|[(q & H & _)|(a & b & c & p & H & Hin & La & Lb & Lc & K)]]; [discriminate|discriminate|]. injection H as ->.
      change (all_chars is_ascii (a ++ "," ++ b ++ "," ++ c ++ p) = true) in Ha. apply chars_app in Ha as [A0 Ha]. apply chars_app in Ha as [_ Ha]. apply chars_app in Ha as [A1 Ha].
      assert (T : exists c', trimSuffix (a ++ "," ++ b ++ "," ++ c ++ p) ")" = (a ++ "," ++ b ++ "," ++ c')%string /\ lacks "," c' = true /\ (c = ""%string -> c' = ""%string)).
      { cbn in Hin. destruct Hin as [<-|[<-|[]]].
        - rewrite sapp_nil_r. destruct (last_char c) as [->|(c' & x & ->)].
          + exists ""%string. split; [|auto]. unfold trimSuffix. replace (hasSuffix _ ")") with false; [reflexivity|]. symmetry. apply suffix_no. intros q Hq.
            replace (a ++ "," ++ b ++ "," ++ "")%string with ((a ++ "," ++ b) ++ String "," "")%string in Hq by sass.
            apply ends_one in Hq; [|discriminate]. discriminate.
          + destruct (Ascii.eqb_spec x ")") as [->|Hx].
            * exists c'. split; [|split; [exact (ends_lacks _ _ _ Lc)|intros Q; destruct c'; discriminate]].
              replace (a ++ "," ++ b ++ "," ++ c' ++ ")")%string with ((a ++ "," ++ b ++ "," ++ c') ++ ")")%string; [apply trimSuffix_app|sass].
            * exists (c' ++ String x "")%string. split; [|auto]. unfold trimSuffix. replace (hasSuffix _ ")") with false; [reflexivity|]. symmetry. apply suffix_no. intros q Hq.
              replace (a ++ "," ++ b ++ "," ++ c' ++ String x "")%string with ((a ++ "," ++ b ++ "," ++ c') ++ String x "")%string in Hq by sass.
              apply ends_one in Hq; [|discriminate]. cbn in Hq. apply Ascii.eqb_eq in Hq. congruence.
        - exists c. split; [|auto]. replace (a ++ "," ++ b ++ "," ++ c ++ ")")%string with ((a ++ "," ++ b ++ "," ++ c) ++ ")")%string; [apply trimSuffix_app|sass]. }
      destruct T as (c' & T & Lc' & Hc). match goal with |- context [trimSuffix ?x ")"] => change x with (a ++ "," ++ b ++ "," ++ c ++ p)%string end. rewrite T. cbn [append]. rewrite !split1_cons by assumption. rewrite split1_none by assumption. apply (V a b c' A0 A1). tauto.
  - unfold trimPrefix. rewrite Hp, String.eqb_refl. cbn [negb]. destruct v as [|k s]; [cbn; tauto|].
    cbn [byteat String.get obind].
    assert (R : forall a b c p, String k s = ("rgb(" ++ a ++ "," ++ b ++ "," ++ c ++ p)%string -> False).
    { intros a b c p H. rewrite H, hasPrefix_app in Hp. discriminate. }
    destruct (Ascii.eqb_spec k "#") as [->|Hk].
    + transitivity (String.length s < 3).
      * assert (N : parseSVGColorNum (String "#" s) = Panic <-> String.length s < 3).
        { split; [apply parseSVGColorNum_panic|]. intros Hl. destruct s as [|x [|y [|z s]]]; try reflexivity. cbn in Hl. lia. }
        rewrite <- N. destruct (parseSVGColorNum (String "#" s)) as [[[x y] z]|e| |]; cbn; split; congruence.
      * split; [intros H; right; left; eauto|]. intros [H|[(q & H & K)|(a & b & c & p & H & _)]]; [discriminate| |destruct (R _ _ _ _ H)]. injection H as ->. exact K.
    + split; [discriminate|]. intros [H|[(q & H & K)|(a & b & c & p & H & _)]]; [discriminate|congruence|destruct (R _ _ _ _ H)].
Qed.

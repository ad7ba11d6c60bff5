(** * ProofsValid4: stops, gradients, definitions and documents (C74) *)
From Coq Require Import ZArith Lia.
From Verif Require Import ProofsGrad ProofsStr ProofsUnit ProofsColor ProofsStyle ProofsAttrs ProofsMistake ProofsMistake2 ProofsMistake3 ProofsTrans ProofsTok ProofsFuel ProofsData ProofsLocal.
From Verif Require Export ProofsValid3.
Local Open Scope go_scope.
Local Open Scope nat_scope.

Section Accept.
Context {E : Env} (md : errorMode) (fuel kt : nat) (Hturns : turns (E := E) kt) (Hkt : kt <= fuel) (Hurl : lower_url E).
Notation F := (F E).
Notation cursor := (cursor E).
Notation C := (@C E).
Notation J := (J (E := E) md).
Notation acc := (acc (E := E) md).

Lemma acc_val f f' {A B} P Q (V : A -> Prop) (m : C A) (k : A -> C B) : (forall c c' a, m c = (c', Ret a) -> V a) -> acc f f' P m -> (forall a, V a -> acc f' f' Q (k a)) -> acc f f' (P /\ Q) (bind m k).
Proof.
  intros HV H K n l c Hc. destruct (H n l c Hc) as [(l1 & H1) H2]. unfold bind. specialize (HV c). destruct (m c) as [c1 o]. cbn [fst snd] in *.
  destruct o as [a|e| |]; cbn [fst snd].
  - destruct (K a (HV _ _ eq_refl) n l1 c1 H1) as [(l2 & K1) K2]. split; [exists l2; exact K1|]. rewrite K2. split; [|tauto]. intros Hq. split; [apply H2; eexists; reflexivity|exact Hq].
  - split; [exists l1; exact H1|]. split; [intros (x & Hx); discriminate|]. intros [Hp _]. apply H2 in Hp as (x & Hx). discriminate.
  - split; [exists l1; exact H1|]. split; [intros (x & Hx); discriminate|]. intros [Hp _]. apply H2 in Hp as (x & Hx). discriminate.
  - split; [exists l1; exact H1|]. split; [intros (x & Hx); discriminate|]. intros [Hp _]. apply H2 in Hp as (x & Hx). discriminate.
Qed.
(** ** Stops *)
Lemma fraction_iff v : all_chars is_ascii v = true -> (rets (readFraction (E := E) v) <-> valid_fraction E v).
Proof.
  intros Ha. unfold readFraction, valid_fraction. cbv zeta. pose proof (padded_ex v Ha) as Pv. pose proof (trim_ascii v Ha) as At.
  assert (U : forall w, padded v w -> w = trimSpace v) by (intros w Hw; symmetry; apply padded_trim, Hw).
  assert (R : forall w d, all_chars is_ascii w = true -> (rets (f <~ parseBasicFloat (E := E) w ;; Ret (fdiv E f d)) <-> valid_length E w)).
  { intros w d Hw. rewrite <- (float_iff w Hw). unfold rets. destruct (parseBasicFloat w); cbn; split; intros (x & Hx); try discriminate; eexists; reflexivity. }
  destruct (hasSuffix (trimSpace v) "%") eqn:Hs.
  - apply suffix_iff in Hs as (m & Em). rewrite Em. assert (Tm : trimSuffix (m ++ "%") "%" = m) by apply trimSuffix_app. rewrite Tm. rewrite R by (rewrite Em in At; apply chars_app in At; apply At). split.
    + intros H. exists (m ++ "%")%string. split; [rewrite <- Em; exact Pv|]. left. eauto.
    + intros (w & Hw & [(m' & Ew & Hm)|(Hn & _)]).
      * rewrite (U w Hw), Em in Ew. apply (f_equal (fun s => trimSuffix s "%")) in Ew. rewrite !trimSuffix_app in Ew. subst m'. exact Hm.
      * exfalso. apply (Hn m). rewrite (U w Hw). exact Em.
  - rewrite R by exact At. split.
    + intros H. exists (trimSpace v). split; [exact Pv|]. right. split; [|exact H]. intros m Em. rewrite Em in Hs. assert (K : hasSuffix (m ++ "%") "%" = true) by (apply suffix_iff; eauto). congruence.
    + intros (w & Hw & [(m' & Ew & Hm)|(Hn & Hl)]); rewrite (U w Hw) in *; [|exact Hl]. rewrite Ew in Hs. assert (K : hasSuffix (m' ++ "%") "%" = true) by (apply suffix_iff; eauto). congruence.
Qed.
Lemma cut_iff s n t : cut1 ":" s = Some (n, t) <-> s = (n ++ ":" ++ t)%string /\ lacks ":" n = true.
Proof.
  split.
  - intros H. destruct (lacks_split ":" s) as [Hl|(a & b & -> & Hl)]; [rewrite cut1_none in H by exact Hl; discriminate|]. rewrite cut1_cons in H by exact Hl. injection H as <- <-. auto.
  - intros [-> Hl]. apply (cut1_cons ":" n t Hl).
Qed.
Lemma find_first attrs : findStyle attrs = match first_attr "style" attrs with Some v => v | None => ""%string end.
Proof. induction attrs as [|a attrs IH]; cbn; [reflexivity|]. destruct (String.eqb (a_name a) "style"); [reflexivity|exact IH]. Qed.
Lemma first_in n attrs v : first_attr n attrs = Some v -> List.In (mkAttr n v) attrs.
Proof.
  induction attrs as [|[k w] attrs IH]; cbn; [discriminate|]. destruct (String.eqb_spec k n) as [->|_]; [intros H; injection H as ->; left; reflexivity|auto].
Qed.
Lemma stop_in attrs a : asciis attrs ->
  (List.In a (appendStyleAttrs (E := E) attrs ["stop-color"; "stop-opacity"]%string) <-> stop_value attrs (a_name a) (a_val a)) /\
  (List.In a (appendStyleAttrs (E := E) attrs ["stop-color"; "stop-opacity"]%string) -> all_chars is_ascii (a_val a) = true).
Proof.
  intros Ha. unfold asciis in Ha. rewrite Forall_forall in Ha. destruct a as [k v]. cbn [a_name a_val]. unfold appendStyleAttrs. cbv zeta. rewrite find_first.
  destruct (first_attr "style" attrs) as [st|] eqn:Hf; [|cbn [String.eqb]].
  2:{ split; [|intros H; apply (Ha _ H)]. split; [intros H; constructor; exact H|]. intros H. inversion H; subst; [assumption|congruence]. }
  pose proof (proj2 (Ha _ (first_in _ _ _ Hf))) as As. cbn [a_val] in As.
  assert (Pc : forall s, piece_of ";" st s -> all_chars is_ascii s = true) by (intros s (x & y & Ex & _); rewrite Ex in As; apply chars_app in As as [_ As]; apply chars_app in As; apply As).
  assert (K : forall a, List.In a (flat_map (fun s => match cut1 ":" s with Some (k, v) => [mkAttr (toLower E (trimSpace k)) (trimSpace v)] | None => [] end) (split1 ";" st))
    <-> exists s n k t v, piece_of ";" st s /\ s = (n ++ ":" ++ t)%string /\ lacks ":" n = true /\ padded n k /\ padded t v /\ a = mkAttr (low_case k) v).
  { intros a. rewrite in_flat_map. split.
    - intros (s & Hs & Hi). apply split_in in Hs. destruct (cut1 ":" s) as [[n t]|] eqn:Hc; [|destruct Hi]. apply cut_iff in Hc as [Es Hl]. destruct Hi as [<-|[]].
      pose proof (Pc s Hs) as A. rewrite Es in A. apply chars_app in A as [A1 A2]. apply chars_app in A2 as [_ A2].
      exists s, n, (trimSpace n), t, (trimSpace t). rewrite (toLower_low E _ (trim_ascii n A1)). pose proof (padded_ex n A1). pose proof (padded_ex t A2). auto 9.
    - intros (s & n & k' & t & v' & Hs & Es & Hl & Pn & Pt & ->). exists s. split; [apply split_in, Hs|]. rewrite (proj2 (cut_iff s n t) (conj Es Hl)). left.
      rewrite (padded_trim _ _ Pn), (padded_trim _ _ Pt), (toLower_low E _ (padded_both _ _ Pn)). reflexivity. }
  assert (N : forall a : attr, existsb (String.eqb (a_name a)) ["stop-color"; "stop-opacity"]%string = true <-> a_name a = "stop-color"%string \/ a_name a = "stop-opacity"%string).
  { intros a. cbn [existsb]. rewrite orb_false_r, orb_true_iff, !String.eqb_eq. reflexivity. }
  destruct (String.eqb_spec st "") as [->|Hst].
  - split; [|intros H; apply (Ha _ H)]. split; [intros H; constructor; exact H|]. intros H. inversion H as [|st' s n k' t v' Hf' Hp Es Hl]; subst; [assumption|]. exfalso. rewrite Hf in Hf'. injection Hf' as <-.
    destruct Hp as (x & y & Ex & _). destruct x; [|discriminate]. destruct n; discriminate.
  - rewrite in_app_iff, filter_In, K, N. split.
    + split.
      * intros [H|[(s & n & k' & t & v' & Hs & Es & Hl & Pn & Pt & Q) H]]; [constructor; exact H|]. injection Q as -> ->. cbn [a_name] in H. eapply sv_style; eassumption.
      * intros H. inversion H as [|st' s n k' t v' Hf' Hp Es Hl Pn Pt Hk]; subst; [left; assumption|]. right. rewrite Hf in Hf'. injection Hf' as <-. split; [|exact Hk]. eauto 15.
    + intros [H|[(s & n & k' & t & v' & Hs & Es & Hl & Pn & Pt & Q) H]]; [apply (Ha _ H)|]. injection Q as -> ->. exact (padded_both _ _ Pt).
Qed.
Lemma acc_onGrad f u : snd f = true -> acc f f True (onGrad (E := E) u).
Proof.
  intros Hf. apply acc_tw; [apply (tw_onGrad md fuel kt Hkt f u u Hf)|]. intros n l c H. split; [auto|intros _]. unfold onGrad.
  pose proof (j_some _ _ _ _ _ H Hf) as S. destruct (c_grad c) as [p|] eqn:Hp; [|congruence]. pose proof (j_ptr _ _ _ _ _ H p Hp) as L. apply nth_error_Some in L. destruct (nth_error (c_gheap c) p); [eexists; reflexivity|congruence].
Qed.
Lemma acc_stop f attrs : snd f = true -> asciis attrs -> acc f f (valid_stop E attrs) (stopF (E := E) attrs).
Proof.
  intros Hf Ha. unfold stopF. intros n l c Hc. unfold bind at 1 3, gets. rewrite (j_grad _ _ _ _ _ Hc), Hf. revert n l c Hc.
  match goal with |- forall n l c, _ -> _ /\ (rets (snd (?m c)) <-> _) => change (acc f f (valid_stop E attrs) m) end.
  apply acc_l; [|intros; apply acc_onGrad, Hf].
  set (P := fun a : attr => (a_name a = "offset"%string -> valid_fraction E (a_val a)) /\ (a_name a = "stop-color"%string -> valid_colour E (a_val a)) /\ (a_name a = "stop-opacity"%string -> valid_length E (a_val a))).
  apply (acc_iff _ _ _ (Forall P (appendStyleAttrs (E := E) attrs ["stop-color"; "stop-opacity"]%string))).
  - rewrite Forall_forall. unfold valid_stop. split.
    + intros H k v K. apply (H (mkAttr k v)). apply (proj1 (stop_in attrs (mkAttr k v) Ha)). exact K.
    + intros H a K. apply (proj1 (stop_in attrs a Ha)) in K. exact (H _ _ K).
  - apply acc_fold. intros s a Hi. apply (proj2 (stop_in attrs a Ha)) in Hi. unfold P, stopAttr.
    unfold is at 1. destruct (String.eqb_spec (a_name a) "offset") as [He|N1].
    { apply (acc_iff _ _ _ (valid_fraction E (a_val a))); [rewrite He; intuition discriminate|]. apply acc_l; [apply acc_lift, fraction_iff, Hi|]. intros. apply acc_ret. exact I. }
    unfold is at 1. destruct (String.eqb_spec (a_name a) "stop-color") as [He|N2].
    { apply (acc_iff _ _ _ (valid_colour E (a_val a))); [rewrite He; intuition discriminate|]. apply acc_l; [apply acc_lift, colour_iff, Hi|]. intros. apply acc_ret. exact I. }
    unfold is at 1. destruct (String.eqb_spec (a_name a) "stop-opacity") as [He|N3].
    { apply (acc_iff _ _ _ (valid_length E (a_val a))); [rewrite He; intuition discriminate|]. apply acc_l; [apply acc_float, Hi|]. intros. apply acc_ret. exact I. }
    apply acc_ret. tauto.
Qed.
(** ** Gradients *)
Lemma acc_register f id : snd f = true -> acc f f True (registerGrad (E := E) id).
Proof.
  intros Hf. apply acc_tw; [apply (tw_register md f id Hf)|]. intros n l c H. split; [auto|intros _]. unfold registerGrad.
  pose proof (j_some _ _ _ _ _ H Hf) as S. destruct (c_grad c) as [p|]; [eexists; reflexivity|congruence].
Qed.
Lemma acc_theGrad f : snd f = true -> acc f f True (theGrad (E := E)).
Proof.
  intros Hf. apply acc_tw; [apply (tw_theGrad md f Hf)|]. intros n l c H. split; [auto|intros _]. unfold theGrad.
  pose proof (j_some _ _ _ _ _ H Hf) as S. destruct (c_grad c) as [p|] eqn:Hp; [|congruence]. pose proof (j_ptr _ _ _ _ _ H p Hp) as L. destruct (idx_in (c_gheap c) p L) as (g & ->). eexists. reflexivity.
Qed.
Definition gt_ok (a : attr) : Prop := a_name a = "gradientTransform"%string -> exists fs, transform_reads_as E (a_val a) fs.
Lemma acc_gradAttr f a : snd f = true -> all_chars is_ascii (a_val a) = true -> acc f f (gt_ok a) (readGradAttr (E := E) a).
Proof.
  intros Hf Ha. unfold readGradAttr, gt_ok. cbv zeta. destruct (String.eqb_spec (a_name a) "gradientTransform") as [He|N].
  - apply (acc_iff _ _ _ (exists fs, transform_reads_as E (a_val a) fs)); [tauto|]. apply acc_l; [apply acc_transform, Ha|]. intros. apply acc_onGrad, Hf.
  - apply (acc_iff _ _ _ True); [tauto|].
    repeat match goal with |- context [if ?b then _ else _] => destruct b end; first [apply acc_onGrad, Hf|apply acc_ret; exact I].
Qed.
Lemma acc_linAttr f l a : snd f = true -> all_chars is_ascii (a_val a) = true -> acc f f (gt_ok a) (linAttr (E := E) l a).
Proof.
  intros Hf Ha. destruct l as [[[x1 y1] x2] y2]. unfold linAttr.
  unfold is at 1. destruct (String.eqb_spec (a_name a) "id") as [He|_].
  { apply (acc_iff _ _ _ True); [unfold gt_ok; rewrite He; intuition discriminate|]. apply acc_l; [apply acc_register, Hf|]. intros. apply acc_ret. exact I. }
  do 4 (unfold is at 1; match goal with |- context [String.eqb (a_name a) ?s] => destruct (String.eqb_spec (a_name a) s) as [He|_]; [apply acc_ret; unfold gt_ok; rewrite He; discriminate|] end).
  apply acc_l; [apply acc_gradAttr; assumption|]. intros. apply acc_ret. exact I.
Qed.
Lemma acc_radAttr f l a : snd f = true -> all_chars is_ascii (a_val a) = true -> acc f f (gt_ok a) (radAttr (E := E) l a).
Proof.
  intros Hf Ha. destruct l as [[[[[cx cy] fx] fy] r] fr]. unfold radAttr.
  unfold is at 1. destruct (String.eqb_spec (a_name a) "id") as [He|_].
  { apply (acc_iff _ _ _ True); [unfold gt_ok; rewrite He; intuition discriminate|]. apply acc_l; [apply acc_register, Hf|]. intros. apply acc_ret. exact I. }
  do 6 (unfold is at 1; match goal with |- context [String.eqb (a_name a) ?s] => destruct (String.eqb_spec (a_name a) s) as [He|_]; [apply acc_ret; unfold gt_ok; rewrite He; discriminate|] end).
  apply acc_l; [apply acc_gradAttr; assumption|]. intros. apply acc_ret. exact I.
Qed.
Lemma last_in n attrs v : last_attr n attrs = Some v -> List.In (mkAttr n v) attrs.
Proof.
  induction attrs as [|[k w] attrs IH]; cbn; [discriminate|]. destruct (last_attr n attrs) as [x|]; [intros H; right; apply IH, H|].
  destruct (String.eqb_spec k n) as [->|_]; [intros H; injection H as ->; left; reflexivity|discriminate].
Qed.
Lemma lasts_ascii n d attrs : asciis attrs -> all_chars is_ascii d = true -> all_chars is_ascii (lasts n d attrs) = true.
Proof.
  intros Ha Hd. unfold lasts. destruct (last_attr n attrs) as [v|] eqn:Hl; [|exact Hd]. unfold asciis in Ha. rewrite Forall_forall in Ha. apply (Ha _ (last_in _ _ _ Hl)).
Qed.
Lemma gt_all attrs : Forall gt_ok attrs <-> forall v, List.In (mkAttr "gradientTransform" v) attrs -> exists fs, transform_reads_as E v fs.
Proof.
  rewrite Forall_forall. unfold gt_ok. split.
  - intros H v Hi. exact (H _ Hi eq_refl).
  - intros H [k v] Hi He. cbn in *. subst k. exact (H v Hi).
Qed.
Lemma acc_coord f {A} P bb s w (k : F -> C A) : all_chars is_ascii s = true -> (forall x, acc f f P (k x)) -> acc f f (valid_length E s /\ P) (x <- lift (resolveUnit (E := E) bb s w) ;; k x).
Proof. intros Ha H. apply acc_bind; [apply acc_lift, resolve_iff, Ha|exact H]. Qed.
Lemma acc_linear f attrs : asciis attrs -> acc f (fst f, true) (valid_gradient E "linearGradient" attrs) (linearGradientF (E := E) attrs).
Proof.
  intros Ha. assert (K : acc (fst f, true) (fst f, true) (valid_gradient E "linearGradient" attrs)
    ('(x1, y1, x2, y2) <- foldM linAttr ("0%", "0%", "100%", "0")%string attrs ;;
     g <- theGrad ;;
     let bbox := gradBox g in
     d0 <- lift (resolveUnit bbox x1 widthPercentage) ;;
     d1 <- lift (resolveUnit bbox y1 heightPercentage) ;;
     d2 <- lift (resolveUnit bbox x2 widthPercentage) ;;
     d3 <- lift (resolveUnit bbox y2 heightPercentage) ;;
     onGrad (E := E) (g_set_direction (Some (Linear d0 d1 d2 d3))))).
  { apply (acc_iff _ _ _ (Forall gt_ok attrs /\ (valid_length E (lasts "x1" "0%" attrs) /\ valid_length E (lasts "y1" "0%" attrs) /\ valid_length E (lasts "x2" "100%" attrs) /\ valid_length E (lasts "y2" "0" attrs) /\ True))).
    - rewrite gt_all. unfold lasts. split.
      + intros (G & X1 & Y1 & X2 & Y2 & _). constructor; [|..|exact G].
        * intros n v Hn Hl. cbn in Hn. destruct Hn as [<-|[<-|[<-|[<-|[]]]]]; rewrite Hl in *; assumption.
        * intros n v Hn Hl. cbn in Hn. destruct Hn as [Hn|[Hn|[Hn|[Hn|[]]]]]; injection Hn as <- <-; rewrite Hl in *; assumption.
      + intros [G1 G2 G3]. split; [exact G3|].
        repeat split; match goal with |- valid_length E (match last_attr ?n attrs with _ => _ end) => destruct (last_attr n attrs) eqn:Hl; [eapply G1; [|exact Hl]; cbn; tauto|eapply G2; [|exact Hl]; cbn; tauto] end.
    - eapply (acc_val _ _ _ _ (fun l => l = (lasts "x1" "0%" attrs, lasts "y1" "0%" attrs, lasts "x2" "100%" attrs, lasts "y2" "0" attrs)%string)).
      + intros c c' a H. apply lin_fold in H. exact H.
      + apply acc_fold. intros l a Hi. apply acc_linAttr; [reflexivity|]. unfold asciis in Ha. rewrite Forall_forall in Ha. apply (Ha a Hi).
      + intros ? ->. apply acc_r; [apply acc_theGrad; reflexivity|]. intros g. cbv zeta.
        repeat (apply acc_coord; [apply lasts_ascii; [exact Ha|reflexivity]|intros ?]). apply acc_onGrad. reflexivity. }
  intros n l c H. unfold linearGradientF, newGrad. unfold bind at 1 3, modify at 1 3. unfold bind at 1 3, modify at 1 2. exact (K n l _ (J_newGrad md fuel kt Hkt f n l c (NG c) H)).
Qed.
Lemma acc_radial f attrs : asciis attrs -> acc f (fst f, true) (valid_gradient E "radialGradient" attrs) (radialGradientF (E := E) attrs).
Proof.
  intros Ha. assert (K : acc (fst f, true) (fst f, true) (valid_gradient E "radialGradient" attrs)
    ('(cx, cy, fx, fy, r, fr) <- foldM radAttr ("50%", "50%", None, None, "50%", "50%")%string attrs ;;
     let fx := match fx with Some s => s | None => cx end in
     let fy := match fy with Some s => s | None => cy end in
     g <- theGrad ;;
     let bbox := gradBox g in
     d0 <- lift (resolveUnit bbox cx widthPercentage) ;;
     d1 <- lift (resolveUnit bbox cy heightPercentage) ;;
     d2 <- lift (resolveUnit bbox fx widthPercentage) ;;
     d3 <- lift (resolveUnit bbox fy heightPercentage) ;;
     d4 <- lift (resolveUnit bbox r diagPercentage) ;;
     d5 <- lift (resolveUnit bbox fr diagPercentage) ;;
     onGrad (E := E) (g_set_direction (Some (Radial d0 d1 d2 d3 d4 d5))))).
  { pose (o := fun n d => match olasts n None attrs with Some s => s | None => lasts d "50%" attrs end).
    apply (acc_iff _ _ _ (Forall gt_ok attrs /\ (valid_length E (lasts "cx" "50%" attrs) /\ valid_length E (lasts "cy" "50%" attrs) /\ valid_length E (o "fx" "cx")%string /\ valid_length E (o "fy" "cy")%string
      /\ valid_length E (lasts "r" "50%" attrs) /\ valid_length E (lasts "fr" "50%" attrs) /\ True))).
    - rewrite gt_all. unfold o, lasts, olasts. split.
      + intros (G & X1 & Y1 & X2 & Y2 & X3 & Y3 & _). constructor; [|..|exact G].
        * intros n v Hn Hl. cbn in Hn. destruct Hn as [<-|[<-|[<-|[<-|[<-|[<-|[]]]]]]]; rewrite Hl in *; assumption.
        * intros n v Hn Hl. cbn in Hn. destruct Hn as [Hn|[Hn|[Hn|[Hn|[]]]]]; injection Hn as <- <-; rewrite Hl in *; assumption.
      + intros [G1 G2 G3]. split; [exact G3|].
        assert (Q : forall n, List.In (n, "50%"%string) (defaults_of "radialGradient") -> List.In n (coordinates_of "radialGradient") -> valid_length E (match last_attr n attrs with Some v => v | None => "50%"%string end)).
        { intros n Q1 Q2. destruct (last_attr n attrs) eqn:Hl; [eapply G1; eassumption|eapply G2; eassumption]. }
        assert (Q' : forall n d, List.In n (coordinates_of "radialGradient") -> List.In (d, "50%"%string) (defaults_of "radialGradient") -> List.In d (coordinates_of "radialGradient") ->
          valid_length E (match match last_attr n attrs with Some v => Some v | None => None end with Some s => s | None => match last_attr d attrs with Some v => v | None => "50%"%string end end)).
        { intros n d Q1 Q2 Q3. destruct (last_attr n attrs) eqn:Hl; [exact (G1 n _ Q1 Hl)|apply Q; assumption]. }
        split; [apply Q; cbn; tauto|]. split; [apply Q; cbn; tauto|]. split; [apply Q'; cbn; tauto|]. split; [apply Q'; cbn; tauto|]. split; [apply Q; cbn; tauto|]. split; [apply Q; cbn; tauto|exact I].
    - eapply (acc_val _ _ _ _ (fun l => l = (lasts "cx" "50%" attrs, lasts "cy" "50%" attrs, olasts "fx" None attrs, olasts "fy" None attrs, lasts "r" "50%" attrs, lasts "fr" "50%" attrs)%string)).
      + intros c c' a H. apply rad_fold in H. exact H.
      + apply acc_fold. intros l a Hi. apply acc_radAttr; [reflexivity|]. unfold asciis in Ha. rewrite Forall_forall in Ha. apply (Ha a Hi).
      + intros ? ->. cbv zeta. apply acc_r; [apply acc_theGrad; reflexivity|]. intros g. fold (o "fx" "cx")%string (o "fy" "cy")%string.
        assert (Ao : forall n d, all_chars is_ascii (o n d) = true).
        { intros n d. unfold o, olasts. destruct (last_attr n attrs) as [v|] eqn:Hl; [unfold asciis in Ha; rewrite Forall_forall in Ha; apply (Ha _ (last_in _ _ _ Hl))|apply lasts_ascii; [exact Ha|reflexivity]]. }
        repeat (apply acc_coord; [first [apply Ao|apply lasts_ascii; [exact Ha|reflexivity]]|intros ?]). apply acc_onGrad. reflexivity. }
  intros n l c H. unfold radialGradientF, newGrad. unfold bind at 1 3, modify at 1 3. unfold bind at 1 3, modify at 1 2. exact (K n l _ (J_newGrad md fuel kt Hkt f n l c (NG c) H)).
Qed.

(** ** Elements where they stand *)
Definition read_ok (f : bool * bool) (name : string) (attrs : list attr) : Prop :=
  (kept (fst f) (snd f) name = false -> List.In name svg_names \/ md <> StrictErrorMode)
  /\ (kept (fst f) (snd f) name = false -> Forall (valid_attribute E md name) attrs)
  /\ (snd f = true -> name = "stop"%string -> valid_stop E attrs) /\ (is_grad_name name = true -> valid_gradient E name attrs).
Lemma free_attrs name attrs : List.In name ["defs"; "linearGradient"; "radialGradient"; "stop"]%string -> Forall (valid_attribute E md name) attrs.
Proof.
  intros Hi. apply Forall_forall. intros a _. apply va_len; [intros Q; cbn in Hi, Q; intuition congruence|].
  intros Q. exfalso. cbn in Hi. destruct Hi as [<-|[<-|[<-|[<-|[]]]]]; destruct Q.
Qed.
Lemma acc_draw_at f name df attrs : ok_at f name = true -> kept (fst f) (snd f) name = false -> drawFuncs fuel name = Some df -> asciis attrs -> acc f (inner f name) (read_ok f name attrs) (df attrs).
Proof.
  intros Ho Hk Hd Ha. assert (Hi : List.In name svg_names). { destruct (in_dec string_dec name svg_names) as [Hi|Hi]; [exact Hi|]. apply (known_name (E := E) fuel) in Hi. congruence. }
  assert (Hu : name <> "use"%string). { intros ->. unfold ok_at in Ho. unfold kept in Hk. destruct (fst f), (snd f); cbn in Ho, Hk; discriminate. }
  destruct (String.eqb_spec name "linearGradient") as [->|N1].
  { injection Hd as <-. replace (inner f "linearGradient") with (fst f, true) by (unfold inner; cbn; rewrite orb_false_r, orb_true_r; reflexivity).
    apply (acc_iff _ _ _ (valid_gradient E "linearGradient" attrs)); [|apply acc_linear, Ha]. unfold read_ok. pose proof (free_attrs "linearGradient" attrs ltac:(cbn; tauto)). split; [|intros (_ & _ & _ & K); apply K; reflexivity].
    intros K. split; [auto|]. split; [auto|]. split; [discriminate|auto]. }
  destruct (String.eqb_spec name "radialGradient") as [->|N2].
  { injection Hd as <-. replace (inner f "radialGradient") with (fst f, true) by (unfold inner; cbn; rewrite orb_false_r, orb_true_r; reflexivity).
    apply (acc_iff _ _ _ (valid_gradient E "radialGradient" attrs)); [|apply acc_radial, Ha]. unfold read_ok. pose proof (free_attrs "radialGradient" attrs ltac:(cbn; tauto)). split; [|intros (_ & _ & _ & K); apply K; reflexivity].
    intros K. split; [auto|]. split; [auto|]. split; [discriminate|auto]. }
  assert (Hg : is_grad_name name = false) by (unfold is_grad_name; apply orb_false_intro; apply String.eqb_neq; assumption).
  destruct (String.eqb_spec name "defs") as [->|N3].
  { injection Hd as <-. apply (acc_iff _ _ _ True).
    - unfold read_ok. pose proof (free_attrs "defs" attrs ltac:(cbn; tauto)). split; [|auto]. intros _. split; [auto|]. split; [auto|]. split; discriminate.
    - apply acc_tw; [apply (draw_at md fuel kt Hturns Hkt f "defs" _ attrs Ho Hu eq_refl)|]. intros n l c _. split; [auto|intros _; eexists; reflexivity]. }
  assert (Hin : inner f name = f). { unfold inner. rewrite Hg. apply String.eqb_neq in N3. rewrite N3, !orb_false_r. destruct f; reflexivity. }
  rewrite Hin. destruct (String.eqb_spec name "stop") as [->|N4].
  - destruct (snd f) eqn:Hf.
    + injection Hd as <-. apply (acc_iff _ _ _ (valid_stop E attrs)); [|apply acc_stop; assumption]. unfold read_ok. rewrite Hf. pose proof (free_attrs "stop" attrs ltac:(cbn; tauto)).
      split; [|intros (_ & _ & K & _); apply K; reflexivity]. intros K. split; [auto|]. split; [auto|]. split; [auto|discriminate].
    + pose proof (acc_draw md fuel kt Hturns Hkt f "stop" df attrs ltac:(cbn; intuition discriminate) (fun _ => Hf) Hd Ha) as K. revert K. apply acc_iff. unfold read_ok. rewrite Hf.
      split; [intros K; split; [auto|]; split; [auto|]; split; discriminate|]. intros (_ & K & _). apply K. exact Hk.
  - pose proof (acc_draw md fuel kt Hturns Hkt f name df attrs ltac:(cbn; intuition congruence) (fun H => False_ind _ (N4 H)) Hd Ha) as K. revert K. apply acc_iff. unfold read_ok. rewrite Hk, Hg.
    split; [intros K; split; [auto|]; split; [auto|]; split; [contradiction|discriminate]|]. intros (_ & K & _). apply K. reflexivity.
Qed.
Lemma acc_read f name attrs : ok_at f name = true -> asciis attrs -> acc f (inner f name) (read_ok f name attrs) (readStartElement fuel name attrs).
Proof.
  intros Ho Ha. apply acc_tw; [apply (tw_read md fuel kt Hturns Hkt f name attrs Ho)|]. intros n l c H.
  assert (Sk : c_inDefs c && negb (String.eqb name "radialGradient" || String.eqb name "linearGradient" || c_inGrad c) = kept (fst f) (snd f) name).
  { unfold kept, is_grad_name. rewrite (j_defs _ _ _ _ _ H), (j_grad _ _ _ _ _ H). destruct (fst f), (snd f), (String.eqb name "radialGradient"), (String.eqb name "linearGradient"); reflexivity. }
  unfold readStartElement. unfold bind at 1, gets. cbv zeta. rewrite Sk. destruct (kept (fst f) (snd f) name) eqn:Hk.
  - assert (R : read_ok f name attrs).
    { unfold read_ok. rewrite Hk. split; [discriminate|]. split; [discriminate|]. unfold kept in Hk. destruct (fst f), (snd f), (is_grad_name name); try discriminate. split; discriminate. }
    split; [auto|intros _]. unfold bind. destruct (negb (String.eqb (attrID attrs) "")); [destruct (calm_flush md f n l c H) as (c1 & -> & H1)|destruct (calm_ret md f n l c H) as (c1 & -> & H1)];
      destruct (calm_addDef md f (mkDef (attrID attrs) name attrs) n l c1 H1) as (c2 & -> & _); eexists; reflexivity.
  - destruct (drawFuncs fuel name) as [df|] eqn:Hd.
    + exact (proj2 (acc_attempt md f (inner f name) _ _ _ (acc_draw_at f name df attrs Ho Hk Hd Ha) (acc_calm md (inner f name) _ (calm_collect md (inner f name))) n l c H)).
    + apply known_name in Hd. pose proof (acc_handle md f (cannotProcess name) n l c H) as [_ K]. eapply iff_trans; [exact K|]. unfold read_ok. rewrite Hk. pose proof (unknown_attrs (E := E) md name attrs Hd) as Hu.
      split; [|intros (K1 & _); destruct (K1 eq_refl); [contradiction|assumption]]. intros Hm. split; [auto|]. split; [auto|].
      split; [intros _ ->; exfalso; apply Hd; cbn; tauto|]. unfold is_grad_name. intros G. exfalso. apply Hd. apply orb_prop in G as [G|G]; apply String.eqb_eq in G; subst; cbn; tauto.
Qed.
Theorem start_at f name attrs n l c : ok_at f name = true -> asciis attrs -> J f n l c ->
  (rets (snd (stepToken fuel (TStart name attrs) c)) <-> valid_at E md (f, (name, attrs))).
Proof.
  intros Ho Ha Hc. cbn [stepToken].
  assert (P : (pushStyle attrs ;; readStartElement fuel name attrs) c = match pushed attrs c with
    | (c1, Ret st) => readStartElement fuel name attrs (c_set_stack (st :: c_stack c1) c1) | (c1, Err e) => (c1, Err e) | (c1, Panic) => (c1, Panic) | (c1, NoFuel) => (c1, NoFuel) end).
  { unfold bind at 1. rewrite push_eq. unfold bind at 1. destruct (pushed attrs c) as [c1 [st|e| |]]; reflexivity. }
  rewrite P. clear P. destruct (acc_pushed md fuel kt Hkt Hurl f attrs Ha n l c Hc) as [(l1 & H1) H2]. destruct (pushed attrs c) as [c1 o]. cbn [fst snd] in *.
  assert (V : valid_at E md (f, (name, attrs)) <-> decls_ok (E := E) md attrs /\ read_ok f name attrs).
  { split; [intros []; split; [|split; [|split; [|split]]]; assumption|intros (K1 & K2 & K3 & K4 & K5); constructor; assumption]. }
  rewrite V, <- H2. destruct o as [st|e| |]; cbn [snd].
  - rewrite (proj2 (acc_read f name attrs Ho Ha (S n) l1 _ (J_push md f n l1 c1 st H1))). split; [|tauto]. intros K. split; [eexists; reflexivity|exact K].
  - split; [intros (x & Hx); discriminate|intros [(x & Hx) _]; discriminate].
  - split; [intros (x & Hx); discriminate|intros [(x & Hx) _]; discriminate].
  - split; [intros (x & Hx); discriminate|intros [(x & Hx) _]; discriminate].
Qed.

(** ** Documents *)
Lemma placed_items : forall nd d g, placed d g nd = ProofsLocal.items (d, g) nd.
Proof.
  fix IH 1. intros [name attrs kids|s|] d g; [|reflexivity..]. cbn [placed ProofsLocal.items]. f_equal. unfold inner. cbn [fst snd].
  induction kids as [|x kids IHk]; [reflexivity|]. cbn [flat_map]. rewrite IHk, IH. reflexivity.
Qed.
Lemma placed_elements : forall nd d g, map snd (placed d g nd) = elements_of nd.
Proof.
  fix IH 1. intros [name attrs kids|s|] d g; [|reflexivity..]. cbn [placed elements_of map snd]. f_equal.
  generalize (d || String.eqb name "defs") (g || is_grad_name name). intros d' g'. induction kids as [|x kids IHk]; [reflexivity|]. cbn [flat_map]. rewrite map_app, IHk, IH. reflexivity.
Qed.
Lemma good_valid it : okit it -> asciis (snd (snd it)) -> (good (E := E) md fuel it <-> valid_at E md it).
Proof.
  destruct it as [f [name attrs]]. intros Ho Ha. cbn [snd] in Ha. rewrite <- (start_at f name attrs 0 [] _ Ho Ha (J_canon md f)).
  unfold good, told, ProofsLocal.one, rets. cbn [fst snd]. split.
  - intros (d & H & _). destruct (snd (stepToken fuel (TStart name attrs) (canon md f))) as [[]|e| |]; cbn in H; try contradiction. eauto.
  - intros ([] & H). eexists. split; [rewrite H; exact I|reflexivity].
Qed.
Theorem accepted_valid ns : forallb (well_nested false false) ns = true -> flat_map elements_of ns <> [] -> Forall ascii_attrs (flat_map elements_of ns) ->
  (accepts E fuel md ns <-> Forall (valid_at E md) (flat_map (placed false false) ns)).
Proof.
  intros Hw Hne Ha. apply wn_doc in Hw.
  assert (Q : flat_map (placed false false) ns = flat_map (ProofsLocal.items out) ns) by (apply flat_map_ext; intros; apply placed_items). rewrite Q.
  assert (A : Forall (fun it : item => asciis (snd (snd it))) (flat_map (ProofsLocal.items out) ns)).
  { rewrite <- Q. assert (M : flat_map elements_of ns = map snd (flat_map (placed false false) ns)).
    { clear. induction ns as [|x ns IH]; [reflexivity|]. cbn [flat_map]. rewrite map_app, placed_elements, IH. reflexivity. }
    rewrite M in Ha. rewrite Forall_map in Ha. exact Ha. }
  transitivity (Forall (good (E := E) md fuel) (flat_map (ProofsLocal.items out) ns)).
  - rewrite <- run_good. unfold accepts. split; intros (log & H); exists log; apply (document_says md fuel kt Hturns Hkt Hurl ns None log Hw Hne); exact H.
  - rewrite Forall_forall in Hw, A. rewrite !Forall_forall. split; intros H it Hi; apply (good_valid it (Hw it Hi) (A it Hi)), H, Hi.
Qed.
Lemma placed_out ns : no_context (flat_map elements_of ns) -> flat_map (placed false false) ns = map (fun el => (false, false, el)) (flat_map elements_of ns).
Proof. intros H. transitivity (flat_map (ProofsLocal.items out) ns); [|exact (plain_doc ns H)]. apply flat_map_ext. intros. apply placed_items. Qed.
Lemma valid_out el : ~ List.In (fst el) context_names -> (valid_at E md (false, false, el) <-> valid_element E md el).
Proof.
  intros Hn. split; [intros [K1 K2 K3 _ _]; constructor; auto|]. intros [K1 K2 K3]. constructor; cbn [fst snd]; auto; try discriminate.
  unfold is_grad_name. intros G. exfalso. apply Hn. apply orb_prop in G as [G|G]; apply String.eqb_eq in G; rewrite G; cbn; tauto.
Qed.
Theorem accepted_plain ns : no_context (flat_map elements_of ns) -> flat_map elements_of ns <> [] -> Forall ascii_attrs (flat_map elements_of ns) ->
  (accepts E fuel md ns <-> Forall (valid_element E md) (flat_map elements_of ns)).
Proof.
  intros Hn Hne Ha. rewrite accepted_valid; [|..|exact Ha]; [|apply wn_doc; rewrite plain_doc by exact Hn; apply plain_all, Hn|exact Hne].
  rewrite (placed_out ns Hn), Forall_map. unfold no_context in Hn. rewrite Forall_forall in Hn. rewrite !Forall_forall. split; intros H el Hi; apply (valid_out el (Hn el Hi)), H, Hi.
Qed.
End Accept.

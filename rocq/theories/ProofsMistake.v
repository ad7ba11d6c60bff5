(** * ProofsMistake: mistakes make Parse fail (C61) *)
From Coq Require Import ZArith Lia.
From Verif Require Export SpecMistake.
From Verif Require Import ProofsMode ProofsSpell ProofsStyle ProofsColor ProofsUnit ProofsTok ProofsPath4.
Local Open Scope go_scope.

(** ** Computations that never succeed *)
Section Fails.
Context {S : Type} (I : S -> Prop).
Definition fails {A} (m : M S A) : Prop := forall c, I c -> forall c' a, m c <> (c', Ret a).
Definition kept {A} (m : M S A) : Prop := forall c, I c -> forall c' a, m c = (c', Ret a) -> I c'.
Lemma fl_raise {A} e : fails (@raise S A e). Proof. intros c _ c' a. discriminate. Qed.
Lemma fl_bind_l {A B} (m : M S A) (k : A -> M S B) : fails m -> fails (bind m k).
Proof. intros H c Hc c' b. unfold bind. destruct (m c) as [c1 [a|e| |]] eqn:Hm; try discriminate. exfalso. exact (H c Hc c1 a Hm). Qed.
Lemma fl_bind_r {A B} (m : M S A) (k : A -> M S B) : kept m -> (forall a, fails (k a)) -> fails (bind m k).
Proof. intros Hm H c Hc c' b. unfold bind. destruct (m c) as [c1 [a|e| |]] eqn:H1; try discriminate. apply H. exact (Hm c Hc c1 a H1). Qed.
Lemma fl_lift {A} (o : outcome A) : (forall a, o <> Ret a) -> fails (lift o).
Proof. intros H c _ c' a K. injection K as _ K. exact (H a K). Qed.
Lemma fl_foldM {A L} (f : L -> A -> M S L) x : (forall l a, kept (f l a)) -> (forall l, fails (f l x)) -> forall xs l, List.In x xs -> fails (foldM f l xs).
Proof.
  intros Hk Hx. induction xs as [|y xs IH]; intros l Hi; [destruct Hi|]. cbn [foldM]. destruct Hi as [->|Hi].
  - apply fl_bind_l, Hx. - apply fl_bind_r; [apply Hk|]. intros l'. apply IH, Hi.
Qed.
Lemma fl_mapM {A} (f : A -> M S unit) x : (forall a, kept (f a)) -> fails (f x) -> forall xs, List.In x xs -> fails (mapM f xs).
Proof.
  intros Hk Hx. induction xs as [|y xs IH]; intros Hi; [destruct Hi|]. cbn [mapM]. destruct Hi as [->|Hi].
  - apply fl_bind_l, Hx. - apply fl_bind_r; [apply Hk|]. intros _. apply IH, Hi.
Qed.
Lemma fl_deferred {A} f (m : M S A) : fails m -> fails (deferred f m).
Proof. intros H c Hc c' a. unfold deferred. destruct (m c) as [c1 o] eqn:H1. intros K. injection K as _ ->. exact (H c Hc c1 a H1). Qed.
(** the error of an attempt is raised later *)
Lemma fl_attempt {A B} (m : M S unit) (n : M S A) (k : M S B) : fails m ->
  fails (err <- attempt m ;; n ;; match err with Some e => raise e | None => k end).
Proof.
  intros H c Hc c' a. unfold bind, attempt. destruct (m c) as [c1 [u|e| |]] eqn:H1; try discriminate.
  - exfalso. exact (H c Hc c1 u H1).
  - destruct (n c1) as [c2 [?|?| |]]; discriminate.
Qed.
Lemma fl_foldM_app {A L} (f : L -> A -> M S L) xs ys zs : (forall l a, kept (f l a)) -> (forall l, fails (foldM f l ys)) -> forall l, fails (foldM f l (xs ++ ys ++ zs)).
Proof.
  intros Hk Hy. induction xs as [|x xs IH]; intros l; cbn [List.app foldM].
  - intros c Hc c' a. rewrite ProofsStyle.foldM_app. revert c Hc c' a. apply fl_bind_l, Hy.
  - apply fl_bind_r; [apply Hk|]. intros l'. apply IH.
Qed.
End Fails.
Lemma kept_any {S A} (m : M S A) : kept (fun _ => True) m. Proof. intros c _ c' a _. exact I. Qed.
Notation never := (fails (fun _ => True)).

(** ** Text *)
Lemma ascii_space c : is_ascii c = true -> is_space_rune (code c) = is_blank c.
Proof. destruct c as [b0 b1 b2 b3 b4 b5 b6 b7]. destruct b0, b1, b2, b3, b4, b5, b6, b7; cbn; intros H; try reflexivity; discriminate. Qed.
Lemma left_split s : all_chars is_ascii s = true -> exists l, s = (l ++ trim_left s)%string /\ blank l = true.
Proof.
  unfold trim_left. induction s as [|c s IH]; intros H; [exists ""%string; auto|]. cbn [all_chars] in H. apply andb_prop in H as [Hc Hs].
  cbn [trim_left_from]. unfold space_width, decode_rune. pose proof Hc as Hc'. unfold is_ascii in Hc'. rewrite Hc'. rewrite (ascii_space _ Hc).
  destruct (is_blank c) eqn:Hb; [|exists ""%string; auto]. destruct (IH Hs) as (l & Hl & Bl). exists (String c l). split; [cbn; f_equal; exact Hl|].
  unfold blank. cbn [all_chars]. rewrite Hb. exact Bl.
Qed.
Lemma rev_split s : all_chars is_ascii s = true -> exists l, s = (l ++ trim_rev_from 0 s)%string /\ blank l = true.
Proof.
  induction s as [|c s IH]; intros H; [exists ""%string; auto|]. cbn [all_chars] in H. apply andb_prop in H as [Hc Hs].
  cbn [trim_rev_from]. unfold space_width_rev. pose proof Hc as Hc'. unfold is_ascii in Hc'. rewrite Hc'. rewrite (ascii_space _ Hc).
  destruct (is_blank c) eqn:Hb; [|exists ""%string; auto]. destruct (IH Hs) as (l & Hl & Bl). exists (String c l). split; [cbn; f_equal; exact Hl|].
  unfold blank. cbn [all_chars]. rewrite Hb. exact Bl.
Qed.
Lemma rev_ascii s : all_chars is_ascii (rev_str s) = all_chars is_ascii s.
Proof. unfold rev_str. rewrite rev_acc_chars. apply andb_true_r. Qed.
Lemma trim_split s : all_chars is_ascii s = true -> exists l r, s = (l ++ trimSpace s ++ r)%string /\ blank l = true /\ blank r = true.
Proof.
  intros H. destruct (left_split s H) as (l & Hl & Bl). set (t := trim_left s) in *.
  assert (Ht : all_chars is_ascii t = true) by (rewrite Hl, all_chars_app in H; apply andb_prop in H; apply H).
  destruct (rev_split (rev_str t)) as (q & Hq & Bq); [rewrite rev_ascii; exact Ht|].
  exists l, (rev_str q). split; [|split; [exact Bl|apply blank_rev, Bq]]. unfold trimSpace, trim_right. fold t. rewrite Hl at 1. f_equal.
  apply rev_inj. rewrite rev_app, !rev_rev. exact Hq.
Qed.

Section L.
Context {E : Env}.
Notation cursor := (cursor E).

(** ** Lengths *)
Definition unit_of (u : unite) : lunit :=
  match u with Px => UPx | Cm => UCm | Mm => UMm | Pt => UPt | In => UIn | Q => UQ | Pc => UPc | Perc => UPercent end.
Lemma app_blank a b : blank a = true -> blank b = true -> blank (a ++ b) = true.
Proof. unfold blank. rewrite all_chars_app. intros -> ->. reflexivity. Qed.
Lemma find_split s : all_chars is_ascii s = true ->
  exists l m u r, s = (l ++ snd (findUnit s) ++ m ++ unit_text u ++ r)%string /\ blank l = true /\ blank m = true /\ blank r = true.
Proof.
  intros H. destruct (trim_split s H) as (l & r & Hs & Bl & Br). unfold findUnit. set (t := trimSpace s) in *.
  assert (Ht : all_chars is_ascii t = true) by (rewrite Hs, !all_chars_app in H; apply andb_prop in H as [_ H]; apply andb_prop in H; apply H).
  assert (K : forall us, Forall (fun e => exists u, unit_text u = snd e) us ->
    exists l' m u r', t = (l' ++ snd (findUnit_in us t) ++ m ++ unit_text u ++ r')%string /\ blank l' = true /\ blank m = true /\ blank r' = true).
  { induction 1 as [|[u0 x] us (u & Hu) _ IH]; cbn [findUnit_in].
    - exists ""%string, ""%string, UNone, ""%string. cbn. rewrite !sapp_nil_r. auto.
    - destruct (hasSuffix t x) eqn:Hx; [|exact IH]. apply suffix_iff in Hx as (p & Hp). cbn [snd] in *.
      assert (Hpa : all_chars is_ascii p = true) by (rewrite Hp, all_chars_app in Ht; apply andb_prop in Ht; apply Ht).
      replace (trimSuffix t x) with p by (rewrite Hp, trimSuffix_app; reflexivity).
      destruct (trim_split p Hpa) as (l' & r' & Hp' & B1 & B2).
      exists l', r', u, ""%string. rewrite Hu, sapp_nil_r. split; [|auto]. rewrite Hp. rewrite Hp' at 1. rewrite !sapp_assoc. reflexivity. }
  destruct (K absoluteUnits) as (l' & m & u & r' & K1 & B1 & B2 & B3).
  { repeat constructor; [exists UPx|exists UCm|exists UMm|exists UPt|exists UIn|exists UQ|exists UPc|exists UPercent]; reflexivity. }
  exists (l ++ l')%string, m, u, (r' ++ r)%string. repeat split; auto using app_blank. rewrite Hs, K1 at 1. rewrite !sapp_assoc. reflexivity.
Qed.
Lemma bad_unit v : bad_length E v -> forall x, parseUnit (E := E) v <> Ret x.
Proof.
  intros [Ha Hb] x. unfold parseUnit. destruct (find_split v Ha) as (l & m & u & r & Hv & B1 & B2 & B3).
  destruct (findUnit v) as [u0 value] eqn:Hf. cbn [snd] in Hv. rewrite (Hb _ _ _ _ _ Hv B1 B2 B3). discriminate.
Qed.
Lemma bad_basic v : bad_length E v -> forall x, parseBasicFloat (E := E) v <> Ret x.
Proof.
  intros H x. unfold parseBasicFloat. pose proof (bad_unit v H) as K. destruct (parseUnit v) as [[y b]|e| |]; try discriminate. destruct (K _ eq_refl).
Qed.
Lemma bad_resolve v vb p : bad_length E v -> forall x, resolveUnit (E := E) vb v p <> Ret x.
Proof.
  intros H x. unfold resolveUnit. pose proof (bad_unit v H) as K. destruct (parseUnit v) as [[y b]|e| |]; try discriminate. destruct (K _ eq_refl).
Qed.
Lemma nv_unit v p : bad_length E v -> never (cParseUnit (E := E) v p).
Proof. intros H c _ c' x K. unfold cParseUnit in K. injection K as _ K. exact (bad_resolve v _ p H x K). Qed.
Lemma bad_trim v : bad_length E v -> bad_length E (trimSpace v).
Proof.
  intros [Ha Hb]. destruct (trim_split v Ha) as (l & r & Hv & Bl & Br). split.
  - rewrite Hv, !all_chars_app in Ha. apply andb_prop in Ha as [_ Ha]. apply andb_prop in Ha. apply Ha.
  - intros l' w m u r' Hw B1 B2 B3. apply (Hb (l ++ l')%string w m u (r' ++ r)%string); auto using app_blank.
    rewrite Hv, Hw at 1. rewrite !sapp_assoc. reflexivity.
Qed.
(** ** Dashes *)
Lemma fields_in p w b : w <> ""%string -> all_chars (fun c => negb (p c)) w = true -> match b with EmptyString => True | String c _ => p c = true end ->
  forall a acc, (a = ""%string /\ acc = ""%string) \/ ends_with p a = true -> List.In w (fields_acc p acc (a ++ w ++ b)).
Proof.
  intros Hw Hc Hb. induction a as [|c a IH]; intros acc Ha.
  - destruct Ha as [[_ ->]|Ha]; [|discriminate]. cbn [append]. rewrite fields_word by exact Hc. cbn [append]. rewrite fields_end by assumption. left. reflexivity.
  - destruct Ha as [[Ha _]|Ha]; [discriminate|]. cbn [append fields_acc].
    assert (K : p c = true /\ a = ""%string \/ ends_with p a = true) by (destruct a; [left; auto|right; exact Ha]).
    destruct (p c) eqn:Hp.
    + assert (H : List.In w (fields_acc p "" (a ++ w ++ b))) by (apply IH; destruct K as [[_ K]|K]; auto). destruct (String.length acc =? 0); [exact H|right; exact H].
    + apply IH. right. destruct K as [[K _]|K]; [discriminate|exact K].
Qed.
Lemma nv_dashes l w : List.In w l -> bad_length E w -> never (parseDashes (E := E) l).
Proof.
  intros Hi Hw. induction l as [|x l IH]; [destruct Hi|]. cbn [parseDashes]. destruct Hi as [->|Hi].
  - apply fl_bind_l, nv_unit, bad_trim, Hw. - apply fl_bind_r; [apply kept_any|]. intros d. apply fl_bind_l, IH, Hi.
Qed.
(** ** Colours *)
Lemma bad_hex_digit c : hex_val c = None -> hex_digit c = None.
Proof. destruct c as [b0 b1 b2 b3 b4 b5 b6 b7]. destruct b0, b1, b2, b3, b4, b5, b6, b7; cbn; intros H; try reflexivity; discriminate. Qed.
Lemma bad_pair a b : hex_val a = None \/ hex_val b = None -> forall x, parseUint16_8 (String a (String b "")) <> Ret x.
Proof.
  intros H x. unfold parseUint16_8. cbn [hex_digits]. destruct H as [H|H]; apply bad_hex_digit in H; rewrite H; [discriminate|]. destruct (hex_digit a); discriminate.
Qed.
Lemma obind_no {A B} (o : outcome A) (k : A -> outcome B) : (forall a, o <> Ret a) -> forall b, obind o k <> Ret b.
Proof. intros H b. destruct o; cbn; try discriminate. destruct (H a eq_refl). Qed.
Lemma obind_no2 {A B} (o : outcome A) (k : A -> outcome B) : (forall a b, k a <> Ret b) -> forall b, obind o k <> Ret b.
Proof. intros H b. destruct o; cbn; try discriminate. apply H. Qed.
Lemma split_count s : List.length (split1 "," s) = Datatypes.S (occurrences "," s).
Proof.
  induction s as [|c s IH]; [reflexivity|]. cbn [split1 occurrences]. destruct (Ascii.eqb c ","); cbn [List.length]; [rewrite IH; reflexivity|].
  destruct (split1 "," s); [discriminate|]. exact IH.
Qed.
Lemma piece_in d p r : no_char d p = true -> (r = ""%string \/ exists r', r = String d r') ->
  forall before, before = ""%string \/ ends_with (Ascii.eqb d) before = true ->
  List.In p (split1 d (before ++ p ++ r)) /\ (before <> ""%string -> List.In p (tl (split1 d (before ++ p ++ r)))).
Proof.
  intros Hp Hr. assert (K0 : exists t, split1 d (p ++ r) = p :: t).
  { destruct Hr as [->|(r' & ->)]; [rewrite sapp_nil_r, (split1_none _ _ Hp); eauto|rewrite (split1_cons _ _ _ Hp); eauto]. }
  induction before as [|c b IH]; intros Hb.
  - cbn [append]. destruct K0 as (t & ->). split; [left; reflexivity|congruence].
  - destruct Hb as [Hb|Hb]; [discriminate|]. cbn [append split1]. destruct b as [|c' b].
    + cbn [ends_with] in Hb. apply Ascii.eqb_eq in Hb. subst c. rewrite Ascii.eqb_refl. cbn [append tl]. destruct K0 as (t & ->). cbn. auto.
    + destruct (IH (or_intror Hb)) as [I1 I2]. specialize (I2 ltac:(discriminate)).
      destruct (Ascii.eqb c d); [cbn [tl]; split; [right; exact I1|intros _; exact I1]|].
      destruct (split1 d (String c' b ++ p ++ r)) as [|h t]; [destruct I2|]. cbn [tl] in *. cbn. auto.
Qed.
Lemma atoi_ret t n : atoi t = Ret n -> exists sg d, t = (sg ++ d)%string /\ List.In sg [""; "+"; "-"]%string /\ d <> ""%string /\ digits d = true.
Proof.
  assert (K : forall s acc z, dec_digits s acc = Some z -> digits s = true).
  { induction s as [|c s IH]; intros acc z H; [reflexivity|]. cbn [dec_digits] in H. unfold digits. cbn [all_chars]. destruct (is_digit c); [|discriminate]. exact (IH _ _ H). }
  assert (G : forall (neg : bool) s t0, match s with
     | EmptyString => Err (ErrNumber t0)
     | _ => match dec_digits s 0%Z with None => Err (ErrNumber t0)
            | Some n => let v := if neg then (- n)%Z else n in if ((int64_min <=? v) && (v <=? int64_max))%Z then Ret v else Err (ErrNumber t0) end
     end = Ret n -> s <> ""%string /\ digits s = true).
  { intros neg s t0 H. destruct s as [|c s]; [discriminate|]. split; [discriminate|]. destruct (dec_digits (String c s) 0) eqn:Hd; [|discriminate]. exact (K _ _ _ Hd). }
  intros H. unfold atoi in H. cbv zeta in H.
  destruct (match t with String "-" r => Some ("-"%string, r) | String "+" r => Some ("+"%string, r) | _ => None end) as [[sg d]|] eqn:Ht.
  - assert (t = (sg ++ d)%string /\ (sg = "-"%string \/ sg = "+"%string)) as [-> Hsg].
    { destruct t as [|[[] [] [] [] [] [] [] []] t]; try discriminate Ht; injection Ht as <- <-; auto. }
    exists sg, d. split; [reflexivity|]. destruct Hsg as [-> | ->]; cbn [append] in H; first [apply (G true) in H | apply (G false) in H]; cbn; tauto.
  - exists ""%string, t. split; [reflexivity|]. split; [cbn; tauto|]. destruct t as [|[[] [] [] [] [] [] [] []] t]; try discriminate Ht; try discriminate H; match goal with |- ?s <> _ /\ _ => exact (G false s s H) end.
Qed.
Lemma value_bad w : all_chars is_ascii w = true -> bad_component w -> forall n, parseColorValue w <> Ret n.
Proof.
  intros Ha Hw n H. unfold parseColorValue in H. destruct (String.length w) as [|k] eqn:Hl; [discriminate|].
  destruct (byteat w k) as [last| | |] eqn:Hk; try discriminate. cbn [obind] in H.
  assert (T : forall v p, all_chars is_ascii v = true -> w = (v ++ p)%string -> List.In p [""; "%"]%string -> forall z, atoi (trimSpace v) <> Ret z).
  { intros v p Hv -> Hp z Hz. destruct (trim_split v Hv) as (l & r & Ev & Bl & Br). apply atoi_ret in Hz as (sg & d & Et & Hsg & Hd & Hdd).
    rewrite Et in Ev. pose proof (Hw l sg d r p ""%string) as Q. rewrite Q in Hdd; try assumption; [discriminate| |reflexivity].
    rewrite Ev, sapp_nil_r, !sapp_assoc. reflexivity. }
  destruct (Ascii.eqb_spec last "%") as [->|_].
  - cbn [Nat.sub] in H. rewrite Nat.sub_0_r in H. destruct (slice w 0 k) as [body| | |] eqn:Hs; try discriminate. cbn [obind] in H.
    assert (E1 : w = (body ++ "%")%string).
    { unfold slice in Hs. destruct ((0 <=? k) && (k <=? String.length w)); [|discriminate]. injection Hs as <-. rewrite Nat.sub_0_r. unfold byteat in Hk.
      clear - Hl Hk. revert k Hl Hk. induction w as [|c w IH]; intros k Hl Hk; [discriminate|]. cbn [String.length] in Hl. injection Hl as Hl. destruct k as [|k].
      - destruct w; [|discriminate]. cbn in *. congruence.
      - cbn [String.substring append String.get] in *. f_equal. apply IH; assumption. }
    destruct (atoi (trimSpace body)) as [z| | |] eqn:Hz; try discriminate. refine (T body "%"%string _ E1 _ z Hz); [|cbn; tauto].
    rewrite E1, all_chars_app in Ha. apply andb_prop in Ha. apply Ha.
  - destruct (atoi (trimSpace w)) as [z| | |] eqn:Hz; try discriminate. refine (T w ""%string Ha _ _ z Hz); [rewrite sapp_nil_r; reflexivity|cbn; tauto].
Qed.
Lemma nc_colour v : bad_colour E v -> forall x, parseSVGColor (E := E) v <> Ret x.
Proof.
  intros H x. destruct H as [v Ha Hu Hn Hc Hh Hr|s Ha Ho Hc|s w Ha Hc (a & b & Es & Hw & Hea & Heb) Hbad|s c Ha Hl Hi Hx Hc].
  - unfold parseSVGColor. rewrite toLower_low by exact Ha. rewrite Hu. apply String.eqb_neq in Hn. rewrite Hn, Hc. cbv zeta.
    unfold trimPrefix. rewrite Hr, String.eqb_refl. cbn [negb]. destruct v as [|k v]; [discriminate|]. cbn [byteat String.get obind].
    destruct (Ascii.eqb_spec k "#") as [->|]; [|discriminate]. cbn in Hh. destruct v; discriminate.
  - unfold parseSVGColor. rewrite toLower_low by (rewrite !all_chars_app, Ha; reflexivity). rewrite Hc.
    change (low_case ("rgb(" ++ s ++ ")")) with (String "r" (String "g" (String "b" (String "(" (low_case (s ++ ")")))))).
    change (hasPrefix (String "r" (String "g" (String "b" (String "(" (low_case (s ++ ")")))))) "url") with false.
    change (String.eqb (String "r" (String "g" (String "b" (String "(" (low_case (s ++ ")")))))) "none") with false. cbv iota zeta.
    rewrite trimPrefix_app, trimSuffix_app.
    destruct (String.eqb_spec (s ++ ")") ("rgb(" ++ s ++ ")")) as [He|_].
    { apply (f_equal String.length) in He. rewrite !len_app in He. cbn in He. lia. }
    cbn [negb]. pose proof (split_count s) as K. destruct (split1 "," s) as [|a [|b [|d [|? ?]]]]; try discriminate. cbn in K. lia.
  - unfold parseSVGColor. rewrite toLower_low by (rewrite !all_chars_app, Ha; reflexivity). rewrite Hc.
    change (low_case ("rgb(" ++ s ++ ")")) with (String "r" (String "g" (String "b" (String "(" (low_case (s ++ ")")))))).
    change (hasPrefix (String "r" (String "g" (String "b" (String "(" (low_case (s ++ ")")))))) "url") with false.
    change (String.eqb (String "r" (String "g" (String "b" (String "(" (low_case (s ++ ")")))))) "none") with false. cbv iota zeta.
    rewrite trimPrefix_app, trimSuffix_app.
    destruct (String.eqb_spec (s ++ ")") ("rgb(" ++ s ++ ")")) as [He|_].
    { apply (f_equal String.length) in He. rewrite !len_app in He. cbn in He. lia. }
    cbn [negb]. assert (Hin : List.In w (split1 "," s)) by (rewrite Es; apply piece_in; assumption).
    assert (Hwa : all_chars is_ascii w = true) by (rewrite Es, !all_chars_app in Ha; apply andb_prop in Ha as [_ Ha]; apply andb_prop in Ha; apply Ha).
    pose proof (value_bad w Hwa Hbad) as Q. destruct (split1 "," s) as [|c1 [|c2 [|c3 [|? ?]]]]; try discriminate.
    destruct Hin as [->|[->|[->|[]]]]; [apply obind_no; exact Q|apply obind_no2; intros ?; apply obind_no; exact Q|apply obind_no2; intros ?; apply obind_no2; intros ?; apply obind_no; exact Q].
  - unfold parseSVGColor. rewrite toLower_low by exact Ha. rewrite Hc.
    change (low_case (String "#" s)) with (String "#" (low_case s)).
    change (hasPrefix (String "#" (low_case s)) "url") with false. change (String.eqb (String "#" (low_case s)) "none") with false. cbv iota zeta.
    replace (trimPrefix (String "#" s) "rgb(") with (String "#" s) by reflexivity. rewrite String.eqb_refl. cbn [negb byteat String.get obind Ascii.eqb Bool.eqb].
    apply obind_no. intros y. unfold parseSVGColorNum. replace (trimPrefix (String "#" s) "#") with s by (symmetry; apply (trimPrefix_app "#" s)).
    assert (K : forall c0 c1 c2 c3 c4 c5, List.In c [c0; c1; c2; c3; c4; c5] -> forall z,
      (s0 <~ slice (string_of_list_ascii [c0; c1; c2; c3; c4; c5]) 0 2 ;; s1 <~ slice (string_of_list_ascii [c0; c1; c2; c3; c4; c5]) 2 4 ;;
       s2 <~ slice (string_of_list_ascii [c0; c1; c2; c3; c4; c5]) 4 6 ;; r <~ parseUint16_8 s0 ;; g <~ parseUint16_8 s1 ;; b <~ parseUint16_8 s2 ;; Ret (r, g, b)) <> Ret z).
    { intros c0 c1 c2 c3 c4 c5 Hc' z. cbn [string_of_list_ascii]. cbn [slice Nat.leb andb String.length String.substring Nat.sub obind].
      destruct Hc' as [->|[->|[->|[->|[->|[->|[]]]]]]].
      1,2: apply obind_no; apply bad_pair; auto.
      1,2: apply obind_no2; intros r; apply obind_no; apply bad_pair; auto.
      1,2: apply obind_no2; intros r; apply obind_no2; intros g; apply obind_no; apply bad_pair; auto. }
    destruct Hl as [Hl|Hl].
    + destruct s as [|c0 [|c1 [|c2 [|? ?]]]]; try discriminate Hl. cbn [String.length Nat.eqb byteat String.get obind].
      apply K. cbn in Hi |- *. tauto.
    + destruct s as [|c0 [|c1 [|c2 [|c3 [|c4 [|c5 [|? ?]]]]]]]; try discriminate Hl. cbn [String.length Nat.eqb obind].
      apply (K c0 c1 c2 c3 c4 c5). exact Hi.
Qed.
End L.

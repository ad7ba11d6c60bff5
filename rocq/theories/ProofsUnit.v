(** * ProofsUnit: suffixes, trimming, lengths *)
From Coq Require Import Lia.
From Verif Require Export Logic SpecAttr ProofsNum.
Local Open Scope go_scope.

(** ** reversal and suffixes *)
Lemma rev_acc_app s : forall acc, rev_str_acc s acc = (rev_str s ++ acc)%string.
Proof.
  unfold rev_str. induction s as [|c s IH]; intros acc; [reflexivity|]. cbn [rev_str_acc].
  rewrite IH, (IH (String c EmptyString)), sapp_assoc. reflexivity.
Qed.
Lemma rev_cons c s : rev_str (String c s) = (rev_str s ++ String c EmptyString)%string.
Proof. unfold rev_str at 1. cbn [rev_str_acc]. apply rev_acc_app. Qed.
Lemma rev_app a b : rev_str (a ++ b) = (rev_str b ++ rev_str a)%string.
Proof.
  induction a as [|c a IH]; cbn [append]; [symmetry; apply sapp_nil_r|].
  rewrite !rev_cons, IH, sapp_assoc. reflexivity.
Qed.
Lemma rev_len s : len (rev_str s) = len s.
Proof. induction s as [|c s IH]; [reflexivity|]. rewrite rev_cons, len_app, IH. cbn. lia. Qed.
Lemma rev_inj a b : rev_str a = rev_str b -> a = b.
Proof. intros H. rewrite <- (rev_rev a), <- (rev_rev b), H. reflexivity. Qed.

Lemma suffix_iff s suf : hasSuffix s suf = true <-> exists p, s = (p ++ suf)%string.
Proof.
  unfold hasSuffix. rewrite andb_true_iff, Nat.leb_le, String.eqb_eq. split.
  - intros [Hl H]. exists (String.substring 0 (len s - len suf) s).
    assert (Hd : String.substring (len s - len suf) (len suf)
      (String.substring 0 (len s - len suf) s ++ dropn (len s - len suf) s) = dropn (len s - len suf) s).
    { apply substring_suffix; [rewrite substring_len0; lia|rewrite dropn_len; lia]. }
    rewrite take_drop, H in Hd. rewrite Hd at 2. symmetry. apply take_drop.
  - intros [p ->]. rewrite len_app. split; [lia|].
    apply substring_suffix; lia.
Qed.
Lemma prefix_iff s pre : String.prefix pre s = true <-> exists r, s = (pre ++ r)%string.
Proof.
  rewrite prefix_correct. split.
  - intros H. exists (dropn (len pre) s). rewrite <- H at 1. symmetry. apply take_drop.
  - intros [r ->]. apply substring_prefix. reflexivity.
Qed.
Lemma prefix_nil s : String.prefix EmptyString s = true.
Proof. destruct s; reflexivity. Qed.
Lemma hasSuffix_rev s suf : hasSuffix s suf = String.prefix (rev_str suf) (rev_str s).
Proof.
  apply eq_true_iff_eq. rewrite suffix_iff, prefix_iff. split.
  - intros [p ->]. exists (rev_str p). apply rev_app.
  - intros [r H]. exists (rev_str r). apply rev_inj. rewrite H, rev_app, rev_rev. reflexivity.
Qed.
Lemma hasSuffix_app w u : hasSuffix (w ++ u) u = true.
Proof. apply suffix_iff. eauto. Qed.
Lemma trimSuffix_app w u : trimSuffix (w ++ u) u = w.
Proof. unfold trimSuffix. rewrite hasSuffix_app. apply substring_prefix. rewrite len_app. lia. Qed.
Lemma hasPrefix_app u w : hasPrefix (u ++ w) u = true.
Proof. apply prefix_iff. eauto. Qed.
Lemma trimPrefix_app u w : trimPrefix (u ++ w) u = w.
Proof. unfold trimPrefix. rewrite hasPrefix_app. apply substring_suffix; rewrite ?len_app; lia. Qed.

(** ** TrimSpace *)
Definition solid_front (s : string) : bool := match s with EmptyString => true | String c _ => plain c end.
Definition solid (s : string) : bool := solid_front s && solid_front (rev_str s).
Lemma blank_space c : is_blank c = true -> (code c <? 128)%N = true /\ is_space_rune (code c) = true.
Proof.
  unfold is_blank. intros H. apply existsb_exists in H as (x & Hx & He). apply Ascii.eqb_eq in He. subst x.
  cbn in Hx. repeat (destruct Hx as [<-|Hx]; [split; reflexivity|]). destruct Hx.
Qed.
Lemma trim_left_blank l s : blank l = true -> trim_left (l ++ s) = trim_left s.
Proof.
  unfold blank, trim_left. induction l as [|c l IH]; [reflexivity|]. cbn [all_chars append]. intros H.
  apply andb_prop in H as [Hc Hl]. cbn [trim_left_from]. destruct (blank_space c Hc) as [H1 H2].
  unfold space_width, decode_rune. rewrite H1, H2. auto.
Qed.
Lemma trim_left_solid s : solid_front s = true -> trim_left s = s.
Proof.
  destruct s as [|c s]; [reflexivity|]. cbn. intros H. unfold plain in H. apply andb_prop in H as [Ha Hs].
  unfold trim_left. cbn [trim_left_from]. unfold space_width, decode_rune. unfold is_ascii in Ha. rewrite Ha.
  apply negb_true_iff in Hs. rewrite Hs. reflexivity.
Qed.
Lemma trim_rev_blank l s : blank l = true -> trim_rev_from 0 (l ++ s) = trim_rev_from 0 s.
Proof.
  unfold blank. induction l as [|c l IH]; [reflexivity|]. cbn [all_chars append]. intros H.
  apply andb_prop in H as [Hc Hl]. cbn [trim_rev_from]. destruct (blank_space c Hc) as [H1 H2].
  unfold space_width_rev. rewrite H1, H2. auto.
Qed.
Lemma trim_rev_solid s : solid_front s = true -> trim_rev_from 0 s = s.
Proof.
  destruct s as [|c s]; [reflexivity|]. cbn [solid_front]. intros H. unfold plain in H. apply andb_prop in H as [Ha Hs].
  cbn [trim_rev_from]. unfold space_width_rev. unfold is_ascii in Ha. rewrite Ha.
  apply negb_true_iff in Hs. rewrite Hs. reflexivity.
Qed.
Lemma blank_rev l : blank l = true -> blank (rev_str l) = true.
Proof. unfold blank. intros H. unfold rev_str. rewrite rev_acc_chars, H. reflexivity. Qed.
Lemma trim_right_blank x r : blank r = true -> solid_front (rev_str x) = true -> trim_right (x ++ r) = x.
Proof.
  intros Hr Hx. unfold trim_right. rewrite rev_app, trim_rev_blank by (apply blank_rev; assumption).
  rewrite trim_rev_solid by assumption. apply rev_rev.
Qed.
Lemma trimSpace_pad l x r : blank l = true -> blank r = true -> solid x = true ->
  trimSpace (l ++ x ++ r) = x.
Proof.
  intros Hl Hr Hx. unfold solid in Hx. apply andb_prop in Hx as [Hf Hb].
  unfold trimSpace. rewrite trim_left_blank by assumption.
  destruct x as [|c x'].
  - cbn [append]. assert (H : trim_left r = EmptyString).
    { rewrite <- (sapp_nil_r r). rewrite trim_left_blank by assumption. reflexivity. }
    rewrite H. reflexivity.
  - rewrite trim_left_solid by exact Hf. apply trim_right_blank; assumption.
Qed.
Lemma trimSpace_end x r : blank r = true -> solid x = true -> trimSpace (x ++ r) = x.
Proof. apply (trimSpace_pad EmptyString). reflexivity. Qed.
Lemma trimSpace_solid x : solid x = true -> trimSpace x = x.
Proof. intros H. rewrite <- (sapp_nil_r x) at 1. apply trimSpace_end; auto. Qed.

Lemma front_chars s : all_chars plain s = true -> solid_front s = true.
Proof. destruct s as [|c s]; [reflexivity|]. cbn. intros H. apply andb_prop in H as [-> _]. reflexivity. Qed.
Lemma solid_chars s : all_chars plain s = true -> solid s = true.
Proof.
  intros H. unfold solid. rewrite (front_chars _ H). apply front_chars. unfold rev_str.
  rewrite rev_acc_chars, H. reflexivity.
Qed.
Lemma solid_front_app a b : a <> EmptyString -> solid_front (a ++ b) = solid_front a.
Proof. destruct a; [congruence|reflexivity]. Qed.
Lemma solid_app a b : solid_front a = true -> solid_front (rev_str b) = true -> a <> EmptyString -> b <> EmptyString ->
  solid (a ++ b) = true.
Proof.
  intros Ha Hb Na Nb. unfold solid. rewrite solid_front_app, Ha, rev_app by assumption.
  rewrite solid_front_app; [exact Hb|]. destruct b; [congruence|]. rewrite rev_cons. destruct (rev_str b); discriminate.
Qed.

(** ** numbers and lengths *)
Lemma ends_with_rev p s : ends_with p s = match rev_str s with EmptyString => false | String c _ => p c end.
Proof.
  induction s as [|c s IH]; [reflexivity|]. cbn [ends_with]. rewrite rev_cons.
  destruct s as [|c' s']; [reflexivity|]. rewrite IH. rewrite rev_cons.
  destruct (rev_str s'); reflexivity.
Qed.
Lemma number_plain w : number_text w = true -> all_chars plain w = true.
Proof.
  unfold number_text. intros H. apply andb_prop in H as [H _]. revert H. apply all_chars_imp. intros c H.
  apply orb_prop in H as [H|H].
  - apply digit_code in H. unfold plain, is_ascii, is_space_rune. apply andb_true_intro. split.
    + apply N.ltb_lt; lia.
    + apply negb_true_iff.
      repeat match goal with
        | |- context [(?a <=? code c)%N] => destruct (N.leb_spec a (code c)); try lia
        | |- context [(code c <=? ?a)%N] => destruct (N.leb_spec (code c) a); try lia
        | |- context [(code c =? ?a)%N] => destruct (N.eqb_spec (code c) a); try lia
        end; reflexivity.
  - apply existsb_exists in H as (x & Hx & He). apply Ascii.eqb_eq in He. subst x.
    cbn in Hx. repeat (destruct Hx as [<-|Hx]; [reflexivity|]). destruct Hx.
Qed.
Lemma number_last w : number_text w = true -> exists c r, rev_str w = String c r /\ (is_digit c = true \/ c = "."%char).
Proof.
  unfold number_text. intros H. apply andb_prop in H as [_ H]. rewrite ends_with_rev in H.
  destruct (rev_str w) as [|c r]; [discriminate|]. exists c, r. split; [reflexivity|].
  apply orb_prop in H as [H|H]; [auto|]. apply Ascii.eqb_eq in H. auto.
Qed.
Lemma number_ne w : number_text w = true -> w <> EmptyString.
Proof. intros H ->. discriminate. Qed.

Definition unite_of (u : lunit) : unite :=
  match u with
  | UNone | UPx => Px | UCm => Cm | UMm => Mm | UPt => Pt | UIn => In | UQ => Q | UPc => Pc | UPercent => Perc
  end.
Lemma no_suffix w suf c r : number_text w = true -> rev_str suf = String c r -> is_digit c = false -> c <> "."%char ->
  hasSuffix w suf = false.
Proof.
  intros Hw Hs Hd Hp. rewrite hasSuffix_rev, Hs. destruct (number_last w Hw) as (x & q & -> & Hx).
  cbn [String.prefix]. destruct (ascii_dec c x) as [->|]; [|reflexivity]. destruct Hx; congruence.
Qed.

Lemma findUnit_length l w m u r : blank l = true -> blank m = true -> blank r = true -> number_text w = true ->
  findUnit (l ++ w ++ m ++ unit_text u ++ r) = (unite_of u, w).
Proof.
  intros Hl Hm Hr Hw. unfold findUnit.
  pose proof (number_plain w Hw) as Hp. pose proof (solid_chars w Hp) as Hs.
  destruct u; cbn [unit_text].
  1: { cbn [append]. replace (w ++ m ++ r)%string with (w ++ (m ++ r))%string by reflexivity.
    rewrite trimSpace_pad; [|assumption|unfold blank in *; rewrite all_chars_app, Hm, Hr; reflexivity|assumption].
    unfold absoluteUnits. cbn [findUnit_in].
    repeat (erewrite no_suffix; [|eassumption|reflexivity|reflexivity|discriminate]). reflexivity. }
  all: match goal with |- context [findUnit_in _ (trimSpace (?l ++ ?w ++ ?m ++ ?t ++ ?r))] =>
    replace (l ++ w ++ m ++ t ++ r)%string with (l ++ ((w ++ m) ++ t) ++ r)%string by (rewrite !sapp_assoc; reflexivity);
    rewrite trimSpace_pad; [|assumption|assumption|
      apply solid_app; [rewrite solid_front_app by (apply number_ne; assumption); apply front_chars; assumption
                       |reflexivity|destruct w; [discriminate Hw|discriminate]|discriminate]];
    unfold absoluteUnits; cbn [findUnit_in];
    rewrite !hasSuffix_rev, ?rev_app; cbn [rev_str rev_str_acc append String.prefix];
    rewrite ?trimSuffix_app
  end.
  all: repeat match goal with |- context [ascii_dec ?a ?b] => let Hx := fresh in destruct (ascii_dec a b) as [Hx|Hx]; [try discriminate Hx|try congruence] end.
  all: cbn [unite_of]; rewrite ?prefix_nil; cbv iota; rewrite ?trimSuffix_app.
  all: try (rewrite trimSpace_end by assumption; reflexivity).
Qed.

Section Len.
Context {E : Env}.
Lemma toPx_per u : toPx (E := E) (unite_of u) = flit E (fst (px_per u)) (snd (px_per u)).
Proof. destruct u; reflexivity. Qed.
Lemma parseUnit_length l w m u r v : blank l = true -> blank m = true -> blank r = true -> number_text w = true ->
  parseFloat E w = Some v ->
  parseUnit (E := E) (l ++ w ++ m ++ unit_text u ++ r)
  = Ret (fmul E v (flit E (fst (px_per u)) (snd (px_per u))), match u with UPercent => true | _ => false end).
Proof.
  intros Hl Hm Hr Hw Hv. unfold parseUnit. rewrite findUnit_length by assumption. rewrite Hv, toPx_per.
  destruct u; reflexivity.
Qed.
Definition ref_of (e : extent) : percRef :=
  match e with OfWidth => widthPercentage | OfHeight => heightPercentage | OfDiagonal => diagPercentage end.
Theorem resolveUnit_length vb e s x : is_length E vb e s x -> resolveUnit vb s (ref_of e) = Ret x.
Proof.
  intros (l & w & m & u & r & v & -> & Hl & Hm & Hr & Hw & Hv & ->).
  unfold resolveUnit. rewrite (parseUnit_length l w m u r v) by assumption. cbn [obind].
  destruct u; try reflexivity. destruct e; reflexivity.
Qed.
Theorem parseBasicFloat_number s x : is_number E s x -> parseBasicFloat s = Ret x.
Proof.
  intros (l & w & m & u & r & v & -> & Hl & Hm & Hr & Hw & Hv & ->).
  unfold parseBasicFloat. rewrite (parseUnit_length l w m u r v) by assumption. reflexivity.
Qed.
Lemma parseUnit_total s : fine (parseUnit (E := E) s).
Proof. unfold parseUnit. destruct (findUnit s). destruct (parseFloat E s0); exact I. Qed.
End Len.

(** * ProofsNum: a legal spelling of numbers is read as those numbers *)
From Coq Require Import Lia.
From Verif Require Export ProofsTok SpecPath.

Lemma eqb_code c d : (code c =? code d)%N = Ascii.eqb c d.
Proof.
  destruct (Ascii.eqb_spec c d) as [->|H]; [apply N.eqb_refl|].
  apply N.eqb_neq. intro K. apply H. unfold code in K.
  rewrite <- (ascii_N_embedding c), <- (ascii_N_embedding d), K. reflexivity.
Qed.

Lemma digit_code c : is_digit c = true -> (48 <= code c <= 57)%N.
Proof. unfold is_digit. intros H; apply andb_prop in H as [A B]. apply N.leb_le in A, B. lia. Qed.

Lemma sep_code c : is_sep c = true ->
  List.In (code c) [32; 44; 9; 10; 12; 13]%N.
Proof.
  unfold is_sep. intros H. apply existsb_exists in H as (d & Hd & Hc).
  apply Ascii.eqb_eq in Hc. subst d. simpl in Hd.
  repeat (destruct Hd as [<-|Hd]; [cbv; tauto|]). destruct Hd.
Qed.

(** ** TrimSpace and HasSuffix on plain characters *)
Lemma rev_acc_chars p s : forall acc, all_chars p (rev_str_acc s acc) = all_chars p s && all_chars p acc.
Proof.
  induction s as [|c s IH]; intros acc; [reflexivity|]. cbn [rev_str_acc all_chars]. rewrite IH.
  cbn [all_chars]. destruct (p c), (all_chars p s), (all_chars p acc); reflexivity.
Qed.
Lemma rev_acc_acc s : forall a b, rev_str_acc (rev_str_acc s a) b = rev_str_acc a (s ++ b)%string.
Proof. induction s as [|c s IH]; intros a b; [reflexivity|]. cbn [rev_str_acc]. rewrite IH. reflexivity. Qed.
Lemma rev_rev s : rev_str (rev_str s) = s.
Proof. unfold rev_str. rewrite rev_acc_acc. cbn. apply sapp_nil_r. Qed.

(** ASCII and not white space *)
Definition plain (c : ascii) : bool := is_ascii c && negb (is_space_rune (code c)).
Lemma trim_left_plain s : all_chars plain s = true -> trim_left s = s.
Proof.
  destruct s as [|c s]; [reflexivity|]. cbn [all_chars]. intros H. apply andb_prop in H as [H _].
  unfold plain in H. apply andb_prop in H as [Ha Hs]. unfold trim_left. cbn [trim_left_from].
  unfold space_width, decode_rune. unfold is_ascii in Ha. rewrite Ha.
  apply negb_true_iff in Hs. rewrite Hs. reflexivity.
Qed.
Lemma trim_right_plain s : all_chars plain s = true -> trim_right s = s.
Proof.
  intros H. unfold trim_right.
  replace (trim_rev_from 0 (rev_str s)) with (rev_str s); [apply rev_rev|].
  assert (K : all_chars plain (rev_str s) = true)
    by (unfold rev_str; rewrite rev_acc_chars, H; reflexivity).
  destruct (rev_str s) as [|c r]; [reflexivity|]. cbn [all_chars] in K. apply andb_prop in K as [K _].
  unfold plain in K. apply andb_prop in K as [Ha Hs]. cbn [trim_rev_from space_width_rev].
  unfold is_ascii in Ha. rewrite Ha. apply negb_true_iff in Hs. rewrite Hs. reflexivity.
Qed.
Lemma trimSpace_plain s : all_chars plain s = true -> trimSpace s = s.
Proof. intros H. unfold trimSpace. rewrite trim_left_plain, trim_right_plain by assumption. reflexivity. Qed.

Lemma substring_chars p s : all_chars p s = true -> forall i n, all_chars p (String.substring i n s) = true.
Proof.
  induction s as [|c s IH]; intros H i n; [destruct i, n; reflexivity|].
  cbn [all_chars] in H. apply andb_prop in H as [Hc Hs].
  destruct i as [|i], n as [|n]; cbn; auto. rewrite Hc. cbn. auto.
Qed.
Lemma hasSuffix_other p s suf : all_chars p s = true -> all_chars p suf = false -> hasSuffix s suf = false.
Proof.
  intros H K. unfold hasSuffix. apply andb_false_iff. right. apply String.eqb_neq. intros Hx.
  rewrite <- Hx, substring_chars in K by assumption. discriminate.
Qed.

Section Num.
Context {E : Env}.
Notation F := (F E).

(** text of tokens *)
Definition numchar (c : ascii) : bool :=
  is_digit c || Ascii.eqb c "." || Ascii.eqb c "e" || Ascii.eqb c "-".
Definition no_dot (s : string) : bool := all_chars (fun c => negb (Ascii.eqb c ".")) s.

Lemma all_chars_imp (p q : ascii -> bool) s :
  (forall c, p c = true -> q c = true) -> all_chars p s = true -> all_chars q s = true.
Proof.
  intros H. induction s; simpl; [auto|]. intros K. apply andb_prop in K as [K1 K2].
  rewrite (H _ K1), IHs; auto.
Qed.

Lemma digits_no_dot s : digits s = true -> no_dot s = true.
Proof.
  apply all_chars_imp. intros c H. apply digit_code in H.
  apply negb_true_iff. apply Ascii.eqb_neq. intros ->. change (code ".") with 46%N in H. lia.
Qed.
Lemma no_dot_app a b : no_dot (a ++ b) = no_dot a && no_dot b.
Proof. apply all_chars_app. Qed.

(** gp over characters that belong to the number *)
Definition feed (cur : option string) (s : string) : option string :=
  match cur with
  | Some t => Some (t ++ s)%string
  | None => match s with EmptyString => None | _ => Some s end
  end.
Lemma feed_cons cur c s : feed (feed cur (String c EmptyString)) s = feed cur (String c s).
Proof. destruct cur; cbn; [rewrite sapp_assoc|]; reflexivity. Qed.
Lemma feed_app cur a b : feed (feed cur a) b = feed cur (a ++ b)%string.
Proof.
  destruct cur as [t|]; cbn; [rewrite sapp_assoc; reflexivity|].
  destruct a; cbn; reflexivity.
Qed.
Fixpoint lastc (lr : N) (s : string) : N :=
  match s with EmptyString => lr | String c r => lastc (code c) r end.
Lemma lastc_app lr a b : lastc lr (a ++ b) = lastc (lastc lr a) b.
Proof. revert lr; induction a; intros; simpl; auto. Qed.

Notation gp := (gp (E := E)).

Lemma inNumber_digit lr c : is_digit c = true -> inNumber (E := E) lr (code c) = true.
Proof.
  intros H. apply digit_code in H. unfold inNumber, isNumber.
  destruct (N.ltb_spec (code c) 128); [|lia].
  destruct (N.leb_spec 48 (code c)); [|lia]. destruct (N.leb_spec (code c) 57); [|lia]. reflexivity.
Qed.

Lemma gp_step cur lr c l : inNumber (E := E) lr (code c) = true ->
  gp cur lr ((code c, String c EmptyString) :: l) = gp (feed cur (String c EmptyString)) (code c) l.
Proof. intros H. cbn [ProofsTok.gp]. rewrite H. destruct cur; reflexivity. Qed.

Lemma gp_digits s : digits s = true -> forall cur lr l,
  gp cur lr (ascii_runes s ++ l) = gp (feed cur s) (lastc lr s) l.
Proof.
  induction s as [|c s IH]; intros H cur lr l; cbn [ascii_runes app lastc].
  - destruct cur; cbn [feed]; [rewrite sapp_nil_r|]; reflexivity.
  - unfold digits in *. simpl in H. apply andb_prop in H as [Hc Hs].
    rewrite gp_step by (apply inNumber_digit; assumption).
    rewrite IH by assumption. rewrite feed_cons. reflexivity.
Qed.

Lemma legal_parts n : legal_numeral n = true ->
  digits (n_int n) = true
  /\ (match n_frac n with None => n_int n <> EmptyString
      | Some f => digits f = true /\ (n_int n <> EmptyString \/ f <> EmptyString) end)
  /\ (match n_exp n with None => True | Some (_, ds) => digits ds = true /\ ds <> EmptyString end).
Proof.
  unfold legal_numeral, nonempty. intros H.
  apply andb_prop in H as [H He]. apply andb_prop in H as [Hi Hf].
  repeat split; auto.
  - destruct (n_frac n) as [f|].
    + apply andb_prop in Hf as [Hf Hn]. split; auto.
      apply orb_prop in Hn as [Hn|Hn]; apply negb_true_iff, String.eqb_neq in Hn; auto.
    + apply negb_true_iff, String.eqb_neq in Hf; auto.
  - destruct (n_exp n) as [[neg ds]|]; auto.
    apply andb_prop in He as [A B]. apply negb_true_iff, String.eqb_neq in B; auto.
Qed.

Lemma gp_unsigned n : legal_numeral n = true -> forall cur lr l,
  gp cur lr (ascii_runes (unsigned_text n) ++ l)
  = gp (feed cur (unsigned_text n)) (lastc lr (unsigned_text n)) l.
Proof.
  intros Hn. apply legal_parts in Hn as (Hi & Hf & He). intros cur lr l.
  unfold unsigned_text.
  rewrite ascii_runes_app, <- app_assoc, gp_digits by assumption.
  rewrite <- (feed_app cur (n_int n)), (lastc_app lr (n_int n)).
  generalize (feed cur (n_int n)) (lastc lr (n_int n)); clear cur lr; intros cur lr.
  assert (Hfrac : forall cur lr l, gp cur lr
     (ascii_runes match n_frac n with None => "" | Some f => "." ++ f end ++ l)
     = gp (feed cur match n_frac n with None => "" | Some f => "." ++ f end)
          (lastc lr match n_frac n with None => "" | Some f => "." ++ f end) l).
  { intros cur' lr' l'. destruct (n_frac n) as [f|].
    - destruct Hf as [Hf _]. cbn [String.append ascii_runes app lastc].
      rewrite gp_step by (unfold inNumber; rewrite !orb_true_r; reflexivity).
      rewrite gp_digits by assumption. rewrite feed_cons. reflexivity.
    - cbn. destruct cur'; cbn [feed]; [rewrite sapp_nil_r|]; reflexivity. }
  rewrite ascii_runes_app, <- app_assoc, Hfrac.
  rewrite <- (feed_app cur), (lastc_app lr).
  match goal with |- gp ?a ?b _ = gp (feed ?a _) (lastc ?b _) _ => generalize a b end.
  clear cur lr Hfrac Hf Hi; intros cur lr.
  destruct (n_exp n) as [[neg ds]|].
  - destruct He as [Hd _]. cbn [String.append ascii_runes app lastc].
    rewrite gp_step by (unfold inNumber; rewrite !orb_true_r; reflexivity).
    destruct neg; cbn [String.append ascii_runes app lastc].
    + rewrite gp_step by (unfold inNumber; rewrite !orb_true_r; reflexivity).
      rewrite gp_digits by assumption. rewrite !feed_cons. reflexivity.
    + rewrite gp_digits by assumption. rewrite feed_cons. reflexivity.
  - cbn. destruct cur; cbn [feed]; [rewrite sapp_nil_r|]; reflexivity.
Qed.

(** the last character of a numeral is not an e *)
Lemma lastc_digits s : digits s = true -> s <> EmptyString -> forall lr, (lastc lr s <> 101)%N.
Proof.
  induction s as [|c s IH]; [congruence|]. intros H _ lr. unfold digits in *. simpl in H.
  apply andb_prop in H as [Hc Hs]. cbn [lastc]. destruct s as [|c' s].
  - cbn. apply digit_code in Hc. lia.
  - apply IH; [assumption|congruence].
Qed.
Lemma lastc_digits' s : digits s = true -> forall lr, (lr <> 101)%N -> (lastc lr s <> 101)%N.
Proof. intros H lr Hl. destruct s; [exact Hl|]. apply lastc_digits; [assumption|congruence]. Qed.
Lemma lastc_unsigned n : legal_numeral n = true -> forall lr, (lr <> 101)%N ->
  (lastc lr (unsigned_text n) <> 101)%N.
Proof.
  intros Hn. apply legal_parts in Hn as (Hi & Hf & He). intros lr Hl. unfold unsigned_text.
  rewrite !lastc_app. destruct (n_exp n) as [[neg ds]|].
  - destruct He as [Hd Hne]. cbn [String.append lastc]. destruct neg; cbn [String.append lastc];
    apply lastc_digits; auto.
  - cbn [lastc]. pose proof (lastc_digits' _ Hi lr Hl) as K. destruct (n_frac n) as [f|].
    + cbn [String.append lastc]. apply lastc_digits'; [tauto|]. cbv; congruence.
    + exact K.
Qed.

(** core: what ParseFloat is given *)
Definition core (n : numeral) : string :=
  (match n_sign n with Minus => "-" | _ => "" end ++ unsigned_text n)%string.

(** ** readFloat's splitting at points *)
Lemma rf_no_dot s : no_dot s = true -> forall cur first l,
  rf cur first (ascii_runes s ++ l) = rf (cur ++ s)%string first l.
Proof.
  induction s as [|c s IH]; intros H cur first l; cbn [ascii_runes app rf].
  - rewrite sapp_nil_r. reflexivity.
  - unfold no_dot in *. simpl in H. apply andb_prop in H as [Hc Hs].
    change 46%N with (code "."). rewrite eqb_code. apply negb_true_iff in Hc. rewrite Hc.
    rewrite IH, sapp_assoc by assumption. reflexivity.
Qed.

Definition exp_text (n : numeral) : string :=
  match n_exp n with None => "" | Some (neg, ds) => "e" ++ (if (neg : bool) then "-" else "") ++ ds end%string.
Lemma exp_no_dot n : legal_numeral n = true -> no_dot (exp_text n) = true.
Proof.
  intros Hn. apply legal_parts in Hn as (_ & _ & He). unfold exp_text.
  destruct (n_exp n) as [[neg ds]|]; [|reflexivity].
  destruct He as [Hd _]. apply digits_no_dot in Hd.
  destruct neg; cbn; exact Hd.
Qed.

Lemma core_parts n : core n =
  ((match n_sign n with Minus => "-" | _ => "" end ++ n_int n)
   ++ match n_frac n with None => "" | Some f => "." ++ f end ++ exp_text n)%string.
Proof. unfold core, unsigned_text, exp_text. rewrite !sapp_assoc. reflexivity. Qed.

Lemma head_no_dot n : legal_numeral n = true ->
  no_dot (match n_sign n with Minus => "-" | _ => "" end ++ n_int n) = true.
Proof.
  intros Hn. apply legal_parts in Hn as (Hi & _ & _). apply digits_no_dot in Hi.
  destruct (n_sign n); cbn; exact Hi.
Qed.

(** a group of numerals written without a break: the first has a point if there are others, and
    the others start with a point *)
Definition starts_dot (n : numeral) : bool :=
  match n_sign n with NoSign => negb (nonempty (n_int n)) && is_some (n_frac n) | _ => false end.
Fixpoint glued (first : bool) (g : list numeral) : Prop :=
  match g with
  | [] => True
  | n :: r => legal_numeral n = true /\ (first = false -> starts_dot n = true)
              /\ (r <> [] -> n_frac n <> None) /\ glued false r
  end.
Definition gtext (g : list numeral) : string := String.concat "" (map core g).
Lemma gtext_cons n g : gtext (n :: g) = (core n ++ gtext g)%string.
Proof. unfold gtext; destruct g; cbn; [rewrite sapp_nil_r|]; reflexivity. Qed.
Lemma gtext_app g h : gtext (g ++ h) = (gtext g ++ gtext h)%string.
Proof.
  induction g as [|n g IH]; [reflexivity|].
  rewrite <- app_comm_cons, !gtext_cons, IH, sapp_assoc. reflexivity.
Qed.

Lemma starts_dot_core n : starts_dot n = true -> exists f,
  n_frac n = Some f /\ core n = (String "." f ++ exp_text n)%string.
Proof.
  unfold starts_dot. intros H. rewrite core_parts. destruct (n_sign n); try discriminate.
  apply andb_prop in H as [H1 H2]. destruct (n_frac n) as [f|]; [|discriminate].
  exists f. split; [reflexivity|].
  apply negb_true_iff in H1. unfold nonempty in H1. apply negb_false_iff in H1.
  apply String.eqb_eq in H1. rewrite H1. reflexivity.
Qed.

Lemma rf_glued_rest g : glued false g -> forall cur,
  rf cur false (ascii_runes (gtext g)) = cur :: map core g.
Proof.
  induction g as [|n g IH]; intros Hg cur; [reflexivity|].
  destruct Hg as (Hn & Hd & _ & Hg). specialize (Hd eq_refl).
  rewrite gtext_cons, ascii_runes_app.
  destruct (starts_dot_core n Hd) as (f & Hf & Hc).
  assert (Hnd : no_dot (f ++ exp_text n) = true).
  { rewrite no_dot_app, (exp_no_dot n Hn).
    apply legal_parts in Hn as (_ & Hfr & _). rewrite Hf in Hfr.
    rewrite digits_no_dot; [reflexivity|tauto]. }
  rewrite Hc at 1. cbn [String.append ascii_runes app rf].
  change 46%N with (code "."). rewrite eqb_code. cbn [Ascii.eqb].
  replace (Ascii.eqb "." ".") with true by reflexivity.
  rewrite rf_no_dot by exact Hnd. cbn [String.append]. rewrite IH by assumption.
  cbn [map]. rewrite Hc. reflexivity.
Qed.


Lemma digits_ascii s : digits s = true -> all_chars is_ascii s = true.
Proof.
  apply all_chars_imp. intros c H. apply digit_code in H. unfold is_ascii.
  apply N.ltb_lt. lia.
Qed.
Lemma core_ascii n : legal_numeral n = true -> all_chars is_ascii (core n) = true.
Proof.
  intros Hn. apply legal_parts in Hn as (Hi & Hf & He). unfold core, unsigned_text.
  rewrite !all_chars_app, (digits_ascii _ Hi).
  destruct (n_sign n), (n_frac n) as [f|], (n_exp n) as [[[] ds]|]; cbn [String.append all_chars andb];
    rewrite ?digits_ascii by tauto; reflexivity.
Qed.
Lemma gtext_ascii g : Forall (fun n => legal_numeral n = true) g -> all_chars is_ascii (gtext g) = true.
Proof.
  induction 1; [reflexivity|]. rewrite gtext_cons, all_chars_app, core_ascii, IHForall; auto.
Qed.
Lemma glued_legal b g : glued b g -> Forall (fun n => legal_numeral n = true) g.
Proof. revert b; induction g; intros b H; constructor; cbn in H; [tauto|]. eapply IHg; apply H. Qed.

Lemma rf_glued g : g <> [] -> glued true g -> rfPieces (gtext g) = map core g.
Proof.
  intros Hne Hg. unfold rfPieces. rewrite runes_ascii by (apply gtext_ascii; eapply glued_legal; eauto).
  destruct g as [|n g]; [congruence|]. destruct Hg as (Hn & _ & Hfr & Hg).
  rewrite gtext_cons, ascii_runes_app, core_parts, ascii_runes_app, <- app_assoc.
  rewrite rf_no_dot by (apply head_no_dot; assumption). cbn [String.append].
  pose proof (exp_no_dot n Hn) as Hx. pose proof (legal_parts n Hn) as (_ & Hf & _).
  rewrite ascii_runes_app, <- app_assoc.
  destruct (n_frac n) as [f|] eqn:Ef.
  - destruct Hf as [Hf _]. apply digits_no_dot in Hf.
    cbn [String.append ascii_runes app rf].
    change 46%N with (code "."). rewrite eqb_code. replace (Ascii.eqb "." ".") with true by reflexivity.
    rewrite rf_no_dot, rf_no_dot, rf_glued_rest by assumption.
    cbn [map]. f_equal. rewrite core_parts, Ef, !sapp_assoc. reflexivity.
  - assert (g = []) as -> by (destruct g; [reflexivity|exfalso; apply Hfr; congruence]).
    cbn [String.append ascii_runes app]. unfold gtext; cbn [map String.concat ascii_runes].
    rewrite rf_no_dot by assumption. cbn [rf map]. f_equal.
    rewrite core_parts, Ef. reflexivity.
Qed.

(** ** getPoints' splitting *)
Definition cur_of (g : list numeral) : option string :=
  match g with [] => None | _ => Some (gtext g) end.
Definition flush (g : list numeral) : list string := map core g.

Lemma gp_cut g lr c l : inNumber (E := E) lr (code c) = false -> glued true g ->
  gp (cur_of g) lr ((code c, String c EmptyString) :: l)
  = map core g ++ gp (if Ascii.eqb c "-" then Some (String c EmptyString) else None) (code c) l.
Proof.
  intros H Hg. cbn [ProofsTok.gp]. rewrite H. cbn [negb].
  change 45%N with (code "-"). rewrite eqb_code. f_equal.
  destruct g as [|n g]; [reflexivity|]. cbn [cur_of]. apply rf_glued; [congruence|assumption].
Qed.

Lemma sep_not_number lr c : is_sep c = true -> inNumber (E := E) lr (code c) = false.
Proof.
  intros H. apply sep_code in H. cbn in H.
  repeat (destruct H as [H|H]; [rewrite <- H; unfold inNumber, isNumber; cbn; reflexivity|]).
  destruct H.
Qed.
Lemma sep_not_minus c : is_sep c = true -> Ascii.eqb c "-" = false.
Proof.
  intros H. destruct (Ascii.eqb_spec c "-"); [subst; discriminate|reflexivity].
Qed.
Lemma sep_not_e c : is_sep c = true -> (code c <> 101)%N.
Proof.
  intros H. apply sep_code in H. cbn in H.
  repeat (destruct H as [H|H]; [rewrite <- H; discriminate|]). destruct H.
Qed.

Lemma gp_seps s : seps s = true -> s <> EmptyString -> forall g lr l, glued true g ->
  exists lr', (lr' <> 101)%N /\
  gp (cur_of g) lr (ascii_runes s ++ l) = map core g ++ gp None lr' l.
Proof.
  induction s as [|c s IH]; [congruence|]. intros H _ g lr l Hg.
  unfold seps in *. simpl in H. apply andb_prop in H as [Hc Hs].
  cbn [ascii_runes app]. rewrite gp_cut by (auto using sep_not_number).
  rewrite sep_not_minus by assumption.
  destruct s as [|c' s'].
  - exists (code c). split; [apply sep_not_e; assumption|reflexivity].
  - destruct (IH Hs ltac:(congruence) [] (code c) l I) as (lr' & Hl & Heq).
    exists lr'. split; [assumption|]. cbn [cur_of] in Heq. rewrite Heq. reflexivity.
Qed.

Lemma unsigned_ne n : legal_numeral n = true -> unsigned_text n <> EmptyString.
Proof.
  intros Hn. apply legal_parts in Hn as (_ & Hf & _). unfold unsigned_text.
  destruct (n_int n); [|simpl; congruence].
  destruct (n_frac n); [simpl; congruence|congruence].
Qed.

Fixpoint lastn (prev : option numeral) (g : list numeral) : option numeral :=
  match g with [] => prev | n :: r => lastn (Some n) r end.
Lemma glued_snoc g : forall b n, glued b g -> legal_numeral n = true ->
  (b = false -> g = [] -> starts_dot n = true) ->
  (forall p, lastn None g = Some p -> starts_dot n = true /\ n_frac p <> None) ->
  glued b (g ++ [n]).
Proof.
  induction g as [|m g IH]; intros b n Hg Hn Hb Hl; cbn [app glued].
  - repeat split; auto.
  - destruct Hg as (Hm & Hmd & Hfr & Hg). repeat split; auto.
    + intros _. destruct g as [|k g].
      * exact (proj2 (Hl m eq_refl)).
      * apply Hfr. congruence.
    + apply IH; auto.
      * intros _ ->. exact (proj1 (Hl m eq_refl)).
      * intros p Hp. apply Hl. cbn [lastn]. destruct g; [discriminate|exact Hp].
Qed.

Lemma gp_items l : forall prev g lr trail,
  legal_items prev l = true -> seps trail = true -> glued true g -> (lr <> 101)%N ->
  (g <> [] -> lastn None g = prev) ->
  gp (cur_of g) lr (ascii_runes (items_text l ++ trail)) = map core g ++ map (fun it => core (snd it)) l.
Proof.
  induction l as [|[sep n] l IH]; intros prev g lr trail Hl Ht Hg Hlr Hprev.
  - cbn [items_text String.append map]. rewrite app_nil_r.
    destruct trail as [|c trail].
    + cbn [ascii_runes]. cbn [ProofsTok.gp]. destruct g; [reflexivity|]. cbn [cur_of].
      apply rf_glued; [congruence|assumption].
    + rewrite <- (app_nil_r (ascii_runes _)).
      destruct (gp_seps (String c trail) Ht ltac:(congruence) g lr [] Hg) as (lr' & _ & ->).
      apply app_nil_r.
  - cbn [legal_items] in Hl. apply andb_prop in Hl as [Hl Hrest].
    apply andb_prop in Hl as [Hl Htouch]. apply andb_prop in Hl as [Hsep Hn].
    cbn [items_text map snd].
    rewrite !sapp_assoc, !ascii_runes_app. 
    (* after the separator *)
    assert (Hgo : forall g lr, glued true g -> (lr <> 101)%N ->
       (forall p, lastn None g = Some p -> may_touch p n = true) ->
       gp (cur_of g) lr (ascii_runes (num_text n) ++ ascii_runes (items_text l) ++ ascii_runes trail)
       = map core g ++ core n :: map (fun it => core (snd it)) l).
    { clear g lr Hg Hlr Hprev. intros g lr Hg Hlr Hm.
      rewrite <- ascii_runes_app.
      assert (Hone : forall lr, (lr <> 101)%N ->
        gp (cur_of [n]) lr (ascii_runes (items_text l ++ trail)) = [core n] ++ map (fun it => core (snd it)) l).
      { intros lr0 Hlr0. apply (IH (Some n)); auto. cbn. repeat split; auto; congruence. }
      unfold num_text. destruct (n_sign n) eqn:Es.
      - (* no sign: feed *)
        cbn [String.append]. rewrite gp_unsigned by assumption.
        assert (Hcore : core n = unsigned_text n) by (unfold core; rewrite Es; reflexivity).
        destruct g as [|m g].
        + cbn [cur_of feed]. pose proof (unsigned_ne n Hn) as Hne.
          replace (match unsigned_text n with EmptyString => None | _ => Some (unsigned_text n) end)
            with (cur_of [n]).
          2:{ cbn [cur_of]. unfold gtext; cbn. rewrite Hcore. destruct (unsigned_text n); congruence. }
          rewrite Hone by (apply lastc_unsigned; assumption). reflexivity.
        + cbn [cur_of feed]. rewrite <- Hcore.
          assert (Hlast : exists p, lastn None (m :: g) = Some p).
          { clear. cbn [lastn]. revert m. induction g; intros m; cbn; eauto. }
          destruct Hlast as [p Hp]. pose proof (Hm p Hp) as Hmt. unfold may_touch in Hmt.
          rewrite Es in Hmt. apply andb_prop in Hmt as [Hm1 Hm2].
          assert (Hsd : starts_dot n = true).
          { unfold starts_dot. rewrite Es, Hm1. cbn. apply legal_parts in Hn as (_ & Hf & _).
            destruct (n_frac n); [reflexivity|]. unfold nonempty in Hm1.
            apply negb_true_iff, negb_false_iff, String.eqb_eq in Hm1. congruence. }
          replace (gtext (m :: g) ++ core n)%string with (gtext ((m :: g) ++ [n])).
          2:{ rewrite gtext_app. unfold gtext at 2. reflexivity. }
          change (Some (gtext ((m :: g) ++ [n]))) with (cur_of ((m :: g) ++ [n])).
          rewrite (IH (Some n)); auto.
          * rewrite map_app, <- app_assoc. reflexivity.
          * apply glued_snoc; auto. intros q Hq. rewrite Hp in Hq. injection Hq as <-.
            split; [assumption|]. destruct (n_frac p); [congruence|discriminate].
          * rewrite Hcore. apply lastc_unsigned; assumption.
          * intros _. clear. generalize (@None numeral). induction (m :: g); intros o; cbn; auto.
      - (* plus *)
        cbn [String.append ascii_runes app].
        rewrite gp_cut; [|unfold inNumber, isNumber; cbn; reflexivity|assumption].
        replace (Ascii.eqb "+" "-") with false by reflexivity.
        rewrite gp_unsigned by assumption. f_equal.
        assert (Hcore : core n = unsigned_text n) by (unfold core; rewrite Es; reflexivity).
        cbn [feed]. pose proof (unsigned_ne n Hn) as Hne.
        replace (match unsigned_text n with EmptyString => None | _ => Some (unsigned_text n) end)
            with (cur_of [n]).
        2:{ cbn [cur_of]. unfold gtext; cbn. rewrite Hcore. destruct (unsigned_text n); congruence. }
        apply Hone. apply lastc_unsigned; [assumption|discriminate].
      - (* minus *)
        cbn [String.append ascii_runes app].
        rewrite gp_cut; [| |assumption].
        2:{ unfold inNumber, isNumber. change (code "-") with 45%N. cbn.
            destruct (N.eqb_spec lr 101); [contradiction|reflexivity]. }
        replace (Ascii.eqb "-" "-") with true by reflexivity.
        rewrite gp_unsigned by assumption. f_equal.
        cbn [feed]. replace (Some ("-" ++ unsigned_text n)%string) with (cur_of [n]).
        2:{ cbn [cur_of]. unfold gtext; cbn. unfold core; rewrite Es. reflexivity. }
        apply Hone. apply lastc_unsigned; [assumption|discriminate]. }
    destruct sep as [|c sep].
    + cbn [String.append ascii_runes app]. apply Hgo; auto.
      intros p Hp. destruct g as [|m g]; [discriminate|].
      rewrite (Hprev ltac:(congruence)) in Hp. rewrite Hp in Htouch. exact Htouch.
    + destruct (gp_seps (String c sep) Hsep ltac:(congruence) g lr
        (ascii_runes (num_text n) ++ ascii_runes (items_text l) ++ ascii_runes trail) Hg) as (lr' & Hlr' & ->).
      f_equal. change None with (cur_of []). rewrite Hgo; auto; [exact I|discriminate].
Qed.

Lemma items_ascii l : forall prev, legal_items prev l = true -> all_chars is_ascii (items_text l) = true.
Proof.
  induction l as [|[sep n] l IH]; intros prev H; [reflexivity|].
  cbn [legal_items] in H. apply andb_prop in H as [H Hr]. apply andb_prop in H as [H _].
  apply andb_prop in H as [Hs Hn].
  cbn [items_text]. rewrite !all_chars_app, (IH _ Hr).
  assert (all_chars is_ascii sep = true) as ->.
  { revert Hs. apply all_chars_imp. intros c Hc. apply sep_code in Hc. unfold is_ascii.
    apply N.ltb_lt. cbn in Hc. lia. }
  pose proof (core_ascii n Hn) as Hc. unfold core in Hc. unfold num_text.
  rewrite all_chars_app in *. destruct (n_sign n); cbn in *; rewrite Hc; reflexivity.
Qed.
Lemma seps_ascii s : seps s = true -> all_chars is_ascii s = true.
Proof.
  apply all_chars_imp. intros c Hc. apply sep_code in Hc. unfold is_ascii.
  apply N.ltb_lt. cbn in Hc. lia.
Qed.

Theorem numPieces_items l trail : legal_items None l = true -> seps trail = true ->
  numPieces (E := E) (items_text l ++ trail) = map (fun it => core (snd it)) l.
Proof.
  intros Hl Ht. unfold numPieces. rewrite runes_ascii.
  - change None with (cur_of []). rewrite (gp_items l None); auto; [exact I|discriminate].
  - rewrite all_chars_app, (items_ascii _ _ Hl), (seps_ascii _ Ht). reflexivity.
Qed.

(** ** the value of a piece *)
Lemma core_numchar n : legal_numeral n = true -> all_chars numchar (core n) = true.
Proof.
  intros Hn. apply legal_parts in Hn as (Hi & Hf & He). unfold core, unsigned_text.
  assert (HD : forall s, digits s = true -> all_chars numchar s = true).
  { intro. apply all_chars_imp. intros c H. unfold numchar. rewrite H. reflexivity. }
  rewrite !all_chars_app, (HD _ Hi).
  destruct (n_sign n), (n_frac n) as [f|], (n_exp n) as [[[] ds]|]; cbn [String.append all_chars andb];
    rewrite ?HD by tauto; reflexivity.
Qed.

Lemma findUnit_numchar s : all_chars numchar s = true -> findUnit s = (Px, s).
Proof.
  intros H. unfold findUnit. rewrite trimSpace_plain.
  - unfold absoluteUnits. cbn [findUnit_in].
    repeat match goal with |- context [hasSuffix s ?x] =>
      replace (hasSuffix s x) with false by (symmetry; apply (hasSuffix_other numchar); [assumption|reflexivity]) end.
    reflexivity.
  - revert H. apply all_chars_imp. intros c Hc. unfold numchar in Hc. unfold plain.
    rewrite !orb_true_iff in Hc. destruct Hc as [[[Hc|Hc]|Hc]|Hc].
    + apply digit_code in Hc. apply andb_true_intro; split.
      * unfold is_ascii. apply N.ltb_lt. lia.
      * unfold is_space_rune. apply negb_true_iff.
        repeat match goal with
        | |- context [(?a <=? code c)%N] => destruct (N.leb_spec a (code c)); try lia
        | |- context [(code c <=? ?a)%N] => destruct (N.leb_spec (code c) a); try lia
        | |- context [(code c =? ?a)%N] => destruct (N.eqb_spec (code c) a); try lia
        end; reflexivity.
    + apply Ascii.eqb_eq in Hc as ->; reflexivity.
    + apply Ascii.eqb_eq in Hc as ->; reflexivity.
    + apply Ascii.eqb_eq in Hc as ->; reflexivity.
Qed.

Lemma parse_core n : legal_numeral n = true ->
  parseBasicFloat (E := E) (core n) =
  match num_value E n with Some v => Ret v | None => Err (ErrNumber (core n)) end.
Proof.
  intros Hn. unfold parseBasicFloat, parseUnit. rewrite findUnit_numchar by (apply core_numchar; assumption).
  unfold num_value. fold (core n). destruct (parseFloat E (core n)); reflexivity.
Qed.

Lemma legal_items_all l : forall prev, legal_items prev l = true ->
  Forall (fun it => legal_numeral (snd it) = true) l.
Proof.
  induction l as [|[sep n] l IH]; intros prev H; [constructor|].
  cbn [legal_items] in H. apply andb_prop in H as [H Hr]. apply andb_prop in H as [H _].
  apply andb_prop in H as [Hs Hn]. constructor; [exact Hn|]. eapply IH; exact Hr.
Qed.

Theorem numbers_spelled s vs : spells_numbers E s vs -> numbers (E := E) s = (vs, Ret tt).
Proof.
  intros (l & trail & -> & Hl & Ht & Hv). unfold numbers. rewrite numPieces_items by assumption.
  apply legal_items_all in Hl. revert vs Hv. induction Hl as [|[sep n] l Hn _ IH]; intros vs Hv.
  - destruct vs; [reflexivity|discriminate].
  - destruct vs as [|v vs]; [discriminate|]. cbn [map snd] in *. injection Hv as Hv1 Hv2.
    cbn [pushes]. rewrite parse_core by assumption. rewrite Hv1, (IH _ Hv2). reflexivity.
Qed.

Lemma spells_numbers_ascii s vs : spells_numbers E s vs -> all_chars is_ascii s = true.
Proof.
  intros (l & trail & -> & Hl & Ht & _).
  rewrite all_chars_app, (items_ascii _ _ Hl), (seps_ascii _ Ht). reflexivity.
Qed.
End Num.

(** * ProofsStyle: style declarations *)
From Coq Require Import Lia.
From Verif Require Export SpecStyle ProofsColor ProofsPath3.
Local Open Scope go_scope.

(** ** part_of, put_part *)
Section PutGet.
Context {E : Env}.
Lemma get_build (f : forall p, part_type E p) p : part_of p (build E f) = f p.
Proof. destruct p; reflexivity. Qed.
Lemma get_put_same p x (st : style E) : part_of p (put_part p x st) = x.
Proof.
  unfold put_part. rewrite get_build. destruct (part_eq_dec p p) as [e|n]; [|congruence].
  rewrite <- (Eqdep_dec.eq_rect_eq_dec part_eq_dec). reflexivity.
Qed.
Lemma get_put_other p q x (st : style E) : p <> q -> part_of q (put_part p x st) = part_of q st.
Proof. intros H. unfold put_part. rewrite get_build. destruct (part_eq_dec p q) as [e|n]; [congruence|reflexivity]. Qed.
Lemma style_ext (a b : style E) : (forall p, part_of p a = part_of p b) -> a = b.
Proof.
  intros H. destruct a as [a1 a2 a3 a4 [j1 j2 j3 j4 j5] a6 a7 a8 a9 a10 a11], b as [b1 b2 b3 b4 [k1 k2 k3 k4 k5] b6 b7 b8 b9 b10 b11].
  pose proof (H FillOpacity). pose proof (H StrokeOpacity). pose proof (H StrokeWidth). pose proof (H FillRule).
  pose proof (H MiterLimit). pose proof (H LineJoin). pose proof (H LineCap). pose proof (H LeadLineCap).
  pose proof (H LineGap). pose proof (H DashArray). pose proof (H DashOffset). pose proof (H FillPaint).
  pose proof (H StrokePaint). pose proof (H MaskList). pose proof (H Transform). cbn in *. congruence.
Qed.
End PutGet.

Section PS.
Context {E : Env}.
Notation style := (style E).
Notation cursor := (cursor E).

(** ** C15: the other parts stay *)
Lemma bindC {A B} (m : @C E A) (k : A -> @C E B) c c' b : bind m k c = (c', Ret b) ->
  exists c1 a, m c = (c1, Ret a) /\ k a c1 = (c', Ret b).
Proof. unfold bind. destruct (m c) as [c1 [a|e| |]]; intros H; try discriminate. eauto. Qed.
Theorem readStyleAttr_parts (st st' : style) k v (c c' : cursor) p :
  readStyleAttr st k v c = (c', Ret st') -> ~ List.In p (parts_named k) -> part_of p st' = part_of p st.
Proof.
  unfold readStyleAttr. intros H Hp.
  repeat lazymatch type of H with
  | (if String.eqb k ?n then _ else _) _ = _ =>
    destruct (String.eqb_spec k n) as [->|?]; [cbv in Hp|]
  | (if String.eqb k ?a || String.eqb k ?b || String.eqb k ?d then _ else _) _ = _ =>
    destruct (String.eqb_spec k a) as [->|?]; [cbv in Hp|destruct (String.eqb_spec k b) as [->|?]; [cbv in Hp|
      destruct (String.eqb_spec k d) as [->|?]; [cbv in Hp|]]]; cbn [orb] in H
  end.
  all: repeat lazymatch type of H with
  | bind _ _ _ = _ => let a := fresh "a" in let c1 := fresh "c" in let H1 := fresh in
                      apply bindC in H; destruct H as (c1 & a & H1 & H); try clear H1
  | (match ?x with _ => _ end) _ = _ => destruct x
  | ret _ _ = _ => unfold ret in H; injection H as <- <-
  | (let _ := _ in _) = _ => cbv zeta in H
  | _ => cbv beta zeta in H
  end.
  all: try reflexivity.
  all: destruct p; try reflexivity; exfalso; apply Hp; tauto.
Qed.

(** ** C15: the part named gets its value *)
Lemma assoc_word {A} (f : string -> option A) (l : list (string * A)) v m :
  forallb (fun e => match f (fst e) with Some _ => true | None => false end) l = true ->
  (forall e, List.In e l -> f (fst e) = Some (snd e)) -> List.In (v, m) l -> f v = Some m.
Proof. intros _ H Hi. exact (H _ Hi). Qed.
Lemma cap_word v m : List.In (v, m) cap_words -> capOf v = Some m.
Proof. cbn. intros H. repeat (destruct H as [H|H]; [injection H as <- <-; reflexivity|]). destruct H. Qed.
Lemma gap_word v m : List.In (v, m) gap_words -> gapOf v = Some m.
Proof. cbn. intros H. repeat (destruct H as [H|H]; [injection H as <- <-; reflexivity|]). destruct H. Qed.
Lemma join_word v m : List.In (v, m) join_words -> joinOf v = Some m.
Proof. cbn. intros H. repeat (destruct H as [H|H]; [injection H as <- <-; reflexivity|]). destruct H. Qed.

(** paint *)
Lemma paint_asPattern p : asPattern p = paint E p.
Proof. destruct p as [(((? & ?) & ?) & ?)|]; reflexivity. Qed.
Lemma firstColor_find (l : list (gradStop E)) :
  match firstColor l with Some c => c | None => black end
  = match List.find (fun s => match stColor s with Some _ => true | None => false end) l with
    | Some s => match stColor s with Some c => c | None => CRGBA 0 0 0 255 end
    | None => CRGBA 0 0 0 255
    end.
Proof.
  induction l as [|s l IH]; [reflexivity|]. cbn [firstColor List.find]. destruct (stColor s) eqn:Hs; [rewrite Hs; reflexivity|exact IH].
Qed.
Lemma getColor_paint p : getColor p = paint_color E p.
Proof. destruct p as [[r g b a|g]|]; try reflexivity. apply firstColor_find. Qed.
Lemma localize_with g p : localizeGrad g p = with_stops E g p.
Proof.
  unfold localizeGrad, with_stops. rewrite getColor_paint. destruct g as [d stops b m sp u]; cbn [gStops g_set_stops gDirection gBounds gMatrix gSpread gUnits].
  destruct (existsb _ stops) eqn:Hx.
  - unfold g_set_stops; cbn. f_equal. apply map_ext. intros [[c|] o op]; reflexivity.
  - f_equal. induction stops as [|s stops IH]; [reflexivity|]. cbn in Hx |- *. apply orb_false_elim in Hx as [Hs Hx].
    rewrite <- IH by exact Hx. f_equal. destruct s as [[c|] o op]; [reflexivity|discriminate].
Qed.
(** the gradients visible to the parser *)
Definition sees (c : cursor) (grads : string -> option (gradient E)) : Prop := forall id,
  match mget id (sv_grads (c_svg c)) with
  | Some p => exists g, nth_error (c_gheap c) p = Some g /\ grads id = Some g
  | None => grads id = None
  end.
Lemma plain_of c : is_ascii c && negb (is_blank c) = true -> plain c = true.
Proof.
  destruct c as [b0 b1 b2 b3 b4 b5 b6 b7].
  destruct b0, b1, b2, b3, b4, b5, b6, b7; vm_compute; auto.
Qed.
Lemma blank_ascii s : blank s = true -> all_chars is_ascii s = true.
Proof. apply all_chars_imp. intros c Hc. apply blank_not in Hc. tauto. Qed.
Lemma url_lower v id : url_ref v id -> all_chars is_ascii v = true /\ hasPrefix (toLower E v) "url" = true.
Proof.
  intros (l & r & -> & Hl & Hr & Hid).
  assert (Ha : all_chars is_ascii ("url(" ++ l ++ String "#" id ++ r ++ ")")%string = true).
  { assert (Hi : all_chars is_ascii id = true) by (revert Hid; apply all_chars_imp; intros c H; apply andb_prop in H; tauto).
    rewrite !all_chars_app, (blank_ascii l), (blank_ascii r) by assumption. cbn [all_chars]. rewrite Hi. reflexivity. }
  split; [exact Ha|]. rewrite toLower_low by exact Ha. reflexivity.
Qed.
Lemma readGradURL_ref v id old (c : cursor) grads : url_ref v id -> sees c grads ->
  readGradURL v old c = (c, Ret (match grads id with Some g => Some (with_stops E g old) | None => None end)).
Proof.
  intros (l & r & -> & Hl & Hr & Hid) Hs. unfold readGradURL.
  assert (Hp : hasPrefix ("url(" ++ l ++ String "#" id ++ r ++ ")") "url(" = true) by apply hasPrefix_app.
  rewrite Hp.
  replace ("url(" ++ l ++ String "#" id ++ r ++ ")")%string with (("url(" ++ l ++ String "#" id ++ r) ++ ")")%string
    by (rewrite !sapp_assoc; cbn; rewrite ?sapp_assoc; reflexivity).
  rewrite hasSuffix_app. cbn [andb].
  replace (("url(" ++ l ++ String "#" id ++ r) ++ ")")%string with ("url(" ++ (l ++ String "#" id ++ r) ++ ")")%string
    by (rewrite !sapp_assoc; reflexivity).
  erewrite bind_step. 2:{ unfold lift. rewrite slice_mid; [reflexivity|reflexivity|]. rewrite !len_app. cbn. lia. }
  assert (Hsol : solid (String "#" id) = true).
  { apply solid_chars. cbn [all_chars]. revert Hid. apply all_chars_imp, plain_of. }
  rewrite trimSpace_pad by assumption. change (hasPrefix (String "#" id) "#") with (String.prefix "" id). rewrite prefix_nil.
  erewrite bind_step. 2:{ unfold lift. rewrite (slice_tail "#" id); [reflexivity|reflexivity|]. cbn. reflexivity. }
  erewrite bind_step by (unfold gets; reflexivity).
  specialize (Hs id). destruct (mget id (sv_grads (c_svg c))) as [p|].
  - destruct Hs as (g & Hg & ->). erewrite bind_step by (unfold lift, idx; rewrite Hg; reflexivity).
    rewrite localize_with. reflexivity.
  - rewrite Hs. reflexivity.
Qed.
Lemma readGradURL_not v old (c : cursor) : hasPrefix v "url(" = false -> readGradURL v old c = (c, Ret None).
Proof. intros H. unfold readGradURL. rewrite H. reflexivity. Qed.

Lemma prefix_lower v : all_chars is_ascii v = true -> hasPrefix v "url(" = true -> hasPrefix (low_case v) "url" = true.
Proof. intros _ H. apply prefix_iff in H as (r & ->). reflexivity. Qed.
Lemma colour_not_url v p (Hn : name_table E) : colour E v p -> hasPrefix v "url(" = false.
Proof.
  intros H. destruct (hasPrefix v "url(") eqn:Hp; [exfalso|reflexivity]. destruct H; try discriminate Hp.
  - apply prefix_iff in Hp as (r & ->). discriminate.
  - apply prefix_iff in Hp as (r & ->). apply Hn in H0 as (_ & Hu & _). discriminate.
Qed.

(** ** dashes *)
Lemma fields_sep p sep : all_chars p sep = true -> forall s, fields_acc p "" (sep ++ s) = fields_acc p "" s.
Proof.
  induction sep as [|c sep IH]; [reflexivity|]. cbn [all_chars append fields_acc]. intros H s.
  apply andb_prop in H as [Hc Hs]. rewrite Hc. cbn. apply IH. exact Hs.
Qed.
Lemma fields_word p w : all_chars (fun c => negb (p c)) w = true -> forall acc s, fields_acc p acc (w ++ s) = fields_acc p (acc ++ w) s.
Proof.
  induction w as [|c w IH]; intros H acc s; [rewrite sapp_nil_r; reflexivity|]. cbn [all_chars append fields_acc] in *.
  apply andb_prop in H as [Hc Hs]. apply negb_true_iff in Hc. rewrite Hc, IH by exact Hs. rewrite sapp_assoc. reflexivity.
Qed.
Lemma fields_end p w s : w <> EmptyString -> match s with EmptyString => True | String c _ => p c = true end ->
  fields_acc p w s = w :: fields_acc p "" s.
Proof.
  intros Hw Hs. destruct w as [|a w]; [congruence|]. destruct s as [|c s]; [reflexivity|].
  cbn [fields_acc]. rewrite Hs. reflexivity.
Qed.
Lemma length_padded vb e s x : is_length E vb e s x -> trimSpace s <> EmptyString /\ is_length E vb e (trimSpace s) x.
Proof.
  intros (l & w & m & u & r & v & -> & Hl & Hm & Hr & Hw & Hv & ->).
  assert (Hsol : solid (w ++ match u with UNone => EmptyString | _ => (m ++ unit_text u)%string end) = true).
  { destruct u; [rewrite sapp_nil_r; apply solid_chars, number_plain; exact Hw|..].
    all: apply solid_app; [apply front_chars, number_plain; exact Hw|rewrite rev_app; reflexivity|apply number_ne; exact Hw|].
    all: destruct m; discriminate. }
  set (u' := match u with UNone => EmptyString | _ => (m ++ unit_text u)%string end) in *.
  assert (Ht : exists r', (m ++ unit_text u ++ r)%string = (u' ++ r')%string /\ blank r' = true).
  { unfold u'. destruct u; [exists (m ++ r)%string; split; [reflexivity|unfold blank in *; rewrite all_chars_app, Hm, Hr; reflexivity]|..].
    all: exists r; split; [rewrite sapp_assoc; reflexivity|exact Hr]. }
  destruct Ht as (r' & -> & Hr').
  replace (l ++ w ++ u' ++ r')%string with (l ++ (w ++ u') ++ r')%string by (rewrite !sapp_assoc; reflexivity).
  rewrite trimSpace_pad by assumption. split.
  { pose proof (number_ne w Hw). destruct w; [congruence|discriminate]. }
  unfold is_length. unfold u'. destruct u.
  - exists ""%string, w, ""%string, UNone, ""%string, v. cbn [append unit_text]. rewrite !sapp_nil_r. auto 8.
  - exists ""%string, w, m, UPx, ""%string, v. rewrite ?sapp_nil_r. auto 8.
  - exists ""%string, w, m, UCm, ""%string, v. rewrite ?sapp_nil_r. auto 8.
  - exists ""%string, w, m, UMm, ""%string, v. rewrite ?sapp_nil_r. auto 8.
  - exists ""%string, w, m, UPt, ""%string, v. rewrite ?sapp_nil_r. auto 8.
  - exists ""%string, w, m, UIn, ""%string, v. rewrite ?sapp_nil_r. auto 8.
  - exists ""%string, w, m, UQ, ""%string, v. rewrite ?sapp_nil_r. auto 8.
  - exists ""%string, w, m, UPc, ""%string, v. rewrite ?sapp_nil_r. auto 8.
  - exists ""%string, w, m, UPercent, ""%string, v. rewrite ?sapp_nil_r. auto 8.
Qed.
Lemma dashes_ok vb s xs : dash_list E vb s xs -> forall (c : cursor), sv_viewBox (c_svg c) = vb ->
  parseDashes (splitOnCommaOrSpace s) c = (c, Ret xs).
Proof.
  intros H c Hc. unfold splitOnCommaOrSpace, fieldsFunc. fold dash_sep. induction H as [s Hs|sep w s x xs Hsep Hw Hx Hs _ IH].
  - replace (fields_acc dash_sep "" s) with (@nil string); [reflexivity|].
    rewrite <- (sapp_nil_r s). rewrite fields_sep by exact Hs. reflexivity.
  - pose proof (length_padded _ _ _ _ Hx) as (Hne & Hx').
    rewrite fields_sep, fields_word by assumption. change ("" ++ w)%string with w.
    rewrite fields_end; auto. 2:{ intros ->. apply Hne. reflexivity. }
    cbn [parseDashes].
    erewrite bind_step. 2:{ unfold cParseUnit. rewrite Hc. f_equal. exact (resolveUnit_length _ _ _ _ Hx'). }
    erewrite bind_step by exact IH. reflexivity.
Qed.

(** ** transform lists *)
Definition same_but_points (c c' : cursor) : Prop := exists ps, c' = c_set_pc (set_points ps (c_pc c)) c.
Lemma sbp_refl c : same_but_points c c.
Proof. exists (pc_points (c_pc c)). destruct c as [[] ?]; reflexivity. Qed.
Lemma sbp_trans a b c : same_but_points a b -> same_but_points b c -> same_but_points a c.
Proof. intros [p ->] [q ->]. exists q. destruct a as [[] ?]; reflexivity. Qed.

Lemma number_char_plain c : is_digit c = true \/ List.In c ["+"; "-"; "."; "e"]%char -> no_char ")" (String c "") = true /\ no_char "(" (String c "") = true.
Proof.
  intros [H|H]; [apply digit_cases in H|]; cbn in H;
    repeat (destruct H as [<-|H]; [split; reflexivity|]); destruct H.
Qed.
Lemma no_char_app d a b : no_char d (a ++ b) = no_char d a && no_char d b.
Proof. apply all_chars_app. Qed.
Lemma digits_no d s : is_digit d = false -> digits s = true -> no_char d s = true.
Proof.
  intros Hd. apply all_chars_imp. intros c Hc. apply negb_true_iff. apply Ascii.eqb_neq. intros ->. congruence.
Qed.
Lemma numeral_no d n : is_digit d = false -> existsb (Ascii.eqb d) ["+"; "-"; "."; "e"]%char = false ->
  legal_numeral n = true -> no_char d (num_text n) = true.
Proof.
  intros Hd He Hn. unfold legal_numeral in Hn. apply andb_prop in Hn as [Hn Hx]. apply andb_prop in Hn as [Hi Hf].
  cbn [existsb] in He. repeat (apply orb_false_elim in He as [? He]).
  assert (Hch : forall c, Ascii.eqb d c = false -> no_char d (String c "") = true).
  { intros c Hc. cbn. rewrite Ascii.eqb_sym, Hc. reflexivity. }
  unfold num_text, unsigned_text. rewrite !no_char_app.
  apply andb_true_intro. split; [destruct (n_sign n); auto|].
  apply andb_true_intro. split; [apply digits_no; assumption|].
  apply andb_true_intro. split.
  - destruct (n_frac n) as [f|]; [|reflexivity]. apply andb_prop in Hf as [Hf _].
    rewrite no_char_app. rewrite Hch by assumption. apply digits_no; assumption.
  - destruct (n_exp n) as [[neg ds]|]; [|reflexivity]. apply andb_prop in Hx as [Hx _].
    rewrite !no_char_app. rewrite Hch by assumption. rewrite (digits_no d ds) by assumption.
    destruct neg; [rewrite Hch by assumption|]; reflexivity.
Qed.
Lemma seps_no d s : is_sep d = false -> seps s = true -> no_char d s = true.
Proof.
  intros Hd. apply all_chars_imp. intros c Hc. apply negb_true_iff. apply Ascii.eqb_neq. intros ->. congruence.
Qed.
Lemma numbers_no d s vs : is_digit d = false -> existsb (Ascii.eqb d) ["+"; "-"; "."; "e"]%char = false -> is_sep d = false ->
  spells_numbers E s vs -> no_char d s = true.
Proof.
  intros Hd He Hs (l & trail & -> & Hl & Ht & _). rewrite no_char_app, (seps_no d trail) by assumption. rewrite andb_true_r.
  clear Ht trail. revert Hl. generalize (@None numeral). induction l as [|[sep n] l IH]; intros prev Hl; [reflexivity|].
  cbn [legal_items items_text] in *. apply andb_prop in Hl as [Hl Hr]. apply andb_prop in Hl as [Hl _]. apply andb_prop in Hl as [Hsep Hn].
  rewrite !no_char_app, (seps_no d sep), (numeral_no d n), (IH (Some n)) by assumption. reflexivity.
Qed.
Lemma low_case_app a b : low_case (a ++ b) = (low_case a ++ low_case b)%string.
Proof. unfold low_case. induction a as [|c a IH]; [reflexivity|]. cbn. rewrite IH. reflexivity. Qed.

(** the names of the functions are letters *)
Lemma tfun_name name vs f : tfun_reads E name vs f ->
  List.In name ["translate"; "scale"; "rotate"; "skewx"; "skewy"; "matrix"]%string.
Proof. destruct f; cbn; intros [-> _]; tauto. Qed.
Lemma lower_letter c d : lower_ascii c = d -> is_lower d = true -> plain c = true /\ c <> "("%char /\ c <> ")"%char /\ is_ascii c = true.
Proof.
  intros <-. destruct c as [b0 b1 b2 b3 b4 b5 b6 b7].
  destruct b0, b1, b2, b3, b4, b5, b6, b7; vm_compute; intros H; try discriminate H; repeat split; discriminate.
Qed.
Lemma lower_word s w : low_case s = w -> all_chars is_lower w = true -> all_chars plain s = true
  /\ no_char "(" s = true /\ no_char ")" s = true /\ all_chars is_ascii s = true.
Proof.
  intros <-. unfold low_case. induction s as [|c s IH]; [cbn; auto|]. cbn [map_chars all_chars]. intros H.
  apply andb_prop in H as [Hc Hs]. destruct (IH Hs) as (H1 & H2 & H3 & H4).
  destruct (lower_letter c _ eq_refl Hc) as (K1 & K2 & K3 & K4).
  unfold no_char in *. cbn [all_chars]. rewrite H1, H2, H3, H4, K1, K4.
  apply Ascii.eqb_neq in K2, K3. rewrite K2, K3. auto.
Qed.
Lemma name_word name vs f : tfun_reads E (low_case name) vs f -> all_chars plain name = true
  /\ no_char "(" name = true /\ no_char ")" name = true /\ all_chars is_ascii name = true /\ name <> EmptyString.
Proof.
  intros H. apply tfun_name in H.
  assert (Hw : all_chars is_lower (low_case name) = true /\ low_case name <> EmptyString).
  { repeat (destruct H as [<-|H]; [split; [reflexivity|discriminate]|]). destruct H. }
  destruct Hw as [Hw Hne]. destruct (lower_word name _ eq_refl Hw) as (? & ? & ? & ?).
  repeat split; auto. intros ->. apply Hne. reflexivity.
Qed.
Lemma blank_no d s : is_blank d = false -> blank s = true -> no_char d s = true.
Proof.
  intros Hd. apply all_chars_imp. intros c Hc. apply negb_true_iff. apply Ascii.eqb_neq. intros ->. congruence.
Qed.
Lemma attr_reads m name vs f : tfun_reads E name vs f -> readTransformAttr m name vs = Ret (tfun_apply E m f).
Proof.
  destruct f; cbn [tfun_reads]; intros [-> H]; try (subst vs; reflexivity).
  - destruct H as [->|[-> ->]]; reflexivity.
Qed.

Lemma transformStep_blank m s c : blank s = true -> transformStep (E := E) m s c = (c, Ret m).
Proof.
  intros H. unfold transformStep. replace (trimSpace s) with EmptyString; [reflexivity|].
  symmetry. rewrite <- (sapp_nil_r s). apply (trimSpace_pad s EmptyString EmptyString); auto.
Qed.
(** trimming a number list on the right only removes separators *)
Lemma seps_split t : seps t = true -> exists t1 t2, t = (t1 ++ t2)%string /\ seps t1 = true /\ blank t2 = true
  /\ (t1 = EmptyString \/ exists q, rev_str t1 = String "," q).
Proof.
  induction t as [|c t IH]; intros H.
  - exists ""%string, ""%string. auto.
  - unfold seps in H. cbn [all_chars] in H. apply andb_prop in H as [Hc Ht]. destruct (IH Ht) as (t1 & t2 & -> & H1 & H2 & H3).
    destruct H3 as [->|(q & Hq)].
    + destruct (Ascii.eqb_spec c ",") as [->|Hn].
      * exists ","%string, t2. repeat split; auto. right. exists ""%string. reflexivity.
      * exists ""%string, (String c t2). repeat split; auto. unfold blank in *. cbn [all_chars]. rewrite H2.
        unfold is_sep in Hc. apply existsb_exists in Hc as (x & Hx & He). apply Ascii.eqb_eq in He. subst x.
        cbn in Hx. repeat (destruct Hx as [<-|Hx]; [try reflexivity; congruence|]). destruct Hx.
    + exists (String c t1), t2. repeat split; auto.
      * unfold seps in *. cbn [all_chars]. rewrite Hc, H1. reflexivity.
      * right. rewrite rev_cons, Hq. cbn. eauto.
Qed.
Lemma digit_last ds : digits ds = true -> nonempty ds = true -> exists c q, rev_str ds = String c q /\ plain c = true.
Proof.
  intros Hd Hn. destruct (rev_nonempty ds) as (c & q & Hq).
  { intros ->. discriminate. }
  exists c, q. split; [exact Hq|]. assert (H : all_chars is_digit (rev_str ds) = true) by (unfold rev_str; rewrite rev_acc_chars; unfold digits in Hd; rewrite Hd; reflexivity).
  rewrite Hq in H. cbn [all_chars] in H. apply andb_prop in H as [H _]. apply digit_plain. exact H.
Qed.
Lemma last_app a b c q : rev_str b = String c q -> exists q', rev_str (a ++ b) = String c q'.
Proof. intros H. rewrite rev_app, H. cbn. eauto. Qed.
Lemma numeral_last n : legal_numeral n = true -> exists c q, rev_str (num_text n) = String c q /\ plain c = true.
Proof.
  intros Hn. unfold legal_numeral in Hn. apply andb_prop in Hn as [Hn Hx]. apply andb_prop in Hn as [Hi Hf].
  unfold num_text, unsigned_text.
  enough (K : exists c q, rev_str (n_int n ++ match n_frac n with None => "" | Some f => "." ++ f end ++
     match n_exp n with None => "" | Some (neg, ds) => "e" ++ (if (neg : bool) then "-" else "") ++ ds end) = String c q /\ plain c = true).
  { destruct K as (c & q & Hq & Hp). exists c. destruct (last_app (match n_sign n with NoSign => "" | Plus => "+" | Minus => "-" end) _ _ _ Hq) as (q' & Hq'). eauto. }
  destruct (n_exp n) as [[neg ds]|].
  - apply andb_prop in Hx as [Hd Hn]. destruct (digit_last ds Hd Hn) as (c & q & Hq & Hp).
    destruct (last_app (if neg then "-" else "") _ _ _ Hq) as (q1 & H1). destruct (last_app "e" _ _ _ H1) as (q2 & H2).
    destruct (last_app (match n_frac n with None => "" | Some f => "." ++ f end) _ _ _ H2) as (q3 & H3).
    destruct (last_app (n_int n) _ _ _ H3) as (q4 & H4). eauto.
  - rewrite sapp_nil_r. destruct (n_frac n) as [f|].
    + apply andb_prop in Hf as [Hf Hne]. destruct (String.eqb_spec f "") as [->|Hfe].
      * destruct (last_app (n_int n) "." _ _ eq_refl) as (q & Hq). exists "."%char, q. split; [exact Hq|reflexivity].
      * destruct (digit_last f Hf) as (c & q & Hq & Hp).
        { unfold nonempty. apply String.eqb_neq in Hfe. rewrite Hfe. reflexivity. }
        destruct (last_app "." _ _ _ Hq) as (q1 & H1). destruct (last_app (n_int n) _ _ _ H1) as (q2 & H2). eauto.
    + rewrite sapp_nil_r. apply digit_last; assumption.
Qed.
Lemma items_last prev l : legal_items prev l = true -> l <> [] -> exists c q, rev_str (items_text l) = String c q /\ plain c = true.
Proof.
  revert prev. induction l as [|[sep n] l IH]; intros prev H Hne; [congruence|]. clear Hne.
  cbn [legal_items items_text] in *. apply andb_prop in H as [H Hr]. apply andb_prop in H as [H _]. apply andb_prop in H as [_ Hn].
  destruct l as [|it l].
  - cbn [items_text]. rewrite sapp_nil_r. destruct (numeral_last n Hn) as (c & q & Hq & Hp).
    destruct (last_app sep _ _ _ Hq) as (q' & Hq'). eauto.
  - destruct (IH (Some n) Hr) as (c & q & Hq & Hp); [discriminate|].
    destruct (last_app (num_text n) _ _ _ Hq) as (q1 & H1). destruct (last_app sep _ _ _ H1) as (q2 & H2). eauto.
Qed.
Lemma numbers_trim vs args : spells_numbers E args vs -> vs <> [] -> exists a b, args = (a ++ b)%string /\ blank b = true
  /\ spells_numbers E a vs /\ exists c q, rev_str a = String c q /\ plain c = true.
Proof.
  intros (l & trail & -> & Hl & Ht & Hv) Hne. destruct (seps_split trail Ht) as (t1 & t2 & -> & H1 & H2 & H3).
  exists (items_text l ++ t1)%string, t2. split; [rewrite sapp_assoc; reflexivity|]. split; [exact H2|].
  split; [exists l, t1; auto|]. destruct H3 as [->|(q & Hq)].
  - rewrite sapp_nil_r. apply (items_last None); [exact Hl|]. intros ->. destruct vs; [congruence|discriminate].
  - destruct (last_app (items_text l) _ _ _ Hq) as (q' & Hq'). exists ","%char, q'. split; [exact Hq'|reflexivity].
Qed.
Lemma tfun_ne name vs f : tfun_reads E name vs f -> vs <> [].
Proof. destruct f; cbn; intros [_ H]; try (subst vs; discriminate). destruct H as [->|[-> _]]; discriminate. Qed.
Lemma transformStep_fun m l name b args vs f (c : cursor) : blank l = true -> blank b = true ->
  tfun_reads E (low_case name) vs f -> spells_numbers E args vs ->
  transformStep m (l ++ name ++ b ++ "(" ++ args)%string c
  = (c_set_pc (set_points vs (c_pc c)) c, Ret (tfun_apply E m f)).
Proof.
  intros Hl Hb Hf Ha. pose proof (tfun_ne _ _ _ Hf) as Hvs.
  destruct (numbers_trim vs args Ha Hvs) as (a & t & -> & Ht & Ha' & k & q & Hk & Hp).
  destruct (name_word _ _ _ Hf) as (Np & No & Nc & Nas & Nne).
  unfold transformStep.
  replace (l ++ name ++ b ++ "(" ++ a ++ t)%string with (l ++ (name ++ b ++ "(" ++ a) ++ t)%string by (rewrite !sapp_assoc; cbn; rewrite ?sapp_assoc; reflexivity).
  assert (Hsol : solid (name ++ b ++ "(" ++ a) = true).
  { apply solid_app; auto.
    - apply front_chars. exact Np.
    - destruct (last_app "(" _ _ _ Hk) as (q1 & H1). destruct (last_app b _ _ _ H1) as (q2 & H2). rewrite H2. exact Hp.
    - destruct b; discriminate. }
  rewrite trimSpace_pad by assumption.
  assert (Hlen : (String.length (name ++ b ++ "(" ++ a) =? 0) = false).
  { destruct name; [congruence|reflexivity]. }
  cbv zeta. rewrite Hlen.
  assert (Hs : split1 "(" (name ++ b ++ "(" ++ a) = [(name ++ b)%string; a]).
  { replace (name ++ b ++ "(" ++ a)%string with ((name ++ b) ++ String "(" a)%string by (rewrite !sapp_assoc; reflexivity).
    rewrite split1_cons, split1_none; [reflexivity| |].
    - apply (numbers_no "(" a vs); auto.
    - rewrite no_char_app, No, (blank_no "(" b); auto. }
  rewrite Hs.
  assert (Hla : (String.length a <? 1) = false).
  { destruct a; [discriminate Hk|reflexivity]. }
  rewrite Hla.
  erewrite bind_step. 2:{ unfold liftP. rewrite getPoints_numbers, (numbers_spelled _ _ Ha'). reflexivity. }
  erewrite bind_step by (unfold gets; reflexivity). cbn [fst snd c_pc c_set_pc set_points pc_points].
  rewrite trimSpace_end by (auto; apply solid_chars; exact Np).
  rewrite toLower_low by exact Nas. unfold lift. rewrite (attr_reads _ _ _ _ Hf). reflexivity.
Qed.
Lemma transform_split v fs : transform_text E v fs -> exists ts last, split1 ")" v = ts ++ [last] /\ blank last = true
  /\ Forall2 (fun t f => exists l name b args vs, t = (l ++ name ++ b ++ "(" ++ args)%string /\ blank l = true /\ blank b = true
     /\ tfun_reads E (low_case name) vs f /\ spells_numbers E args vs) ts fs.
Proof.
  induction 1 as [s Hs|l name b args vs f s fs Hl Hb Hf Ha Hne _ (ts & last & Hsp & Hla & Hts)].
  - exists [], s. split; [rewrite split1_none; [reflexivity|]|auto]. apply blank_no; auto.
  - exists ((l ++ name ++ b ++ "(" ++ args)%string :: ts), last. split; [|split; [exact Hla|constructor; [|exact Hts]]].
    + replace (l ++ name ++ b ++ "(" ++ args ++ ")" ++ s)%string with ((l ++ name ++ b ++ "(" ++ args) ++ String ")" s)%string
        by (rewrite !sapp_assoc; cbn; rewrite ?sapp_assoc; reflexivity).
      rewrite split1_cons, Hsp; [reflexivity|]. destruct (name_word _ _ _ Hf) as (Np & No & Nc & Nas & Nne).
      rewrite !no_char_app, (blank_no ")" l), Nc, (blank_no ")" b), (numbers_no ")" args vs); auto.
    + exists l, name, b, args, vs. auto 6.
Qed.
Lemma foldM_app {S A L} (f : L -> A -> M S L) xs : forall ys l s, 
  foldM f l (xs ++ ys) s = bind (foldM f l xs) (fun l' => foldM f l' ys) s.
Proof.
  induction xs as [|x xs IH]; intros ys l s; [reflexivity|]. cbn [foldM List.app]. unfold bind at 1 2 3.
  destruct (f l x s) as [s' [l'|e| |]]; auto. rewrite IH. reflexivity.
Qed.
Theorem parseTransform_text v fs (c : cursor) par rest : transform_text E v fs -> c_stack c = par :: rest ->
  exists c', parseTransform v c = (c', Ret (fold_left (tfun_apply E) (rev fs) (st_transform par))) /\ same_but_points c c'.
Proof.
  intros H Hst. destruct (transform_split v fs H) as (ts & last & Hsp & Hla & Hts). clear H.
  unfold parseTransform. erewrite bind_step by (unfold topStyle; rewrite Hst; reflexivity).
  rewrite Hsp, rev_app_distr. cbn [rev List.app foldM]. erewrite bind_step by (apply transformStep_blank; exact Hla).
  clear Hst Hsp. revert c. generalize (st_transform par) as m.
  induction Hts as [|t f ts fs Ht _ IH]; intros m c; cbn [rev].
  - exists c. split; [reflexivity|apply sbp_refl].
  - rewrite foldM_app, fold_left_app. destruct (IH m c) as (c1 & H1 & Hs1).
    erewrite bind_step by exact H1. cbn [foldM fold_left].
    destruct Ht as (l & name & b & args & vs & -> & Hl & Hb & Hf & Ha).
    erewrite bind_step by (apply (transformStep_fun _ l name b args vs f); assumption).
    eexists. split; [reflexivity|]. eapply sbp_trans; [exact Hs1|]. exists vs. reflexivity.
Qed.

(** ** one declaration *)
Context (Hnames : name_table E).
Lemma is_paint_fill grads old v p (c : cursor) st (set : option (pattern E) -> style -> style) : is_paint E grads old v p -> sees c grads ->
  (g <- readGradURL v old ;;
   match g with
   | Some g => ret (set (Some (PGrad g)) st)
   | None => col <- lift (parseSVGColor (E := E) v) ;; ret (set (asPattern col) st)
   end) c = (c, Ret (set p st)).
Proof.
  intros H Hs. destruct H as [v q Hq|v id g Hu Hg|v id Hu Hg].
  - erewrite bind_step by (apply readGradURL_not; apply (colour_not_url v q Hnames Hq)). cbv beta iota.
    erewrite bind_step by (unfold lift; rewrite (parseSVGColor_colour E Hnames v q Hq); reflexivity).
    rewrite paint_asPattern. reflexivity.
  - erewrite bind_step by (apply (readGradURL_ref v id _ _ grads); assumption). rewrite Hg. reflexivity.
  - erewrite bind_step by (apply (readGradURL_ref v id _ _ grads); assumption). rewrite Hg.
    destruct (url_lower v id Hu) as [Ha Hp].
    erewrite bind_step by (unfold lift, parseSVGColor; rewrite Hp; reflexivity). reflexivity.
Qed.
Lemma number_value s x : is_number E s x -> parseBasicFloat (E := E) s = Ret x.
Proof. apply parseBasicFloat_number. Qed.

Ltac fin := unfold ret; match goal with |- (?c, Ret ?a) = (_, Ret ?b) => replace b with a; [reflexivity|apply style_ext; intros []; reflexivity] end.
Theorem decl_ok vb grads par st k v us (c : cursor) rest : decl E vb grads par st k v us ->
  sv_viewBox (c_svg c) = vb -> sees c grads -> c_stack c = par :: rest ->
  exists c', readStyleAttr st k v c = (c', Ret (put_parts us st)) /\ same_but_points c c'.
Proof.
  intros H Hvb Hs Hst.
  assert (Hlen : forall e s x, is_length E vb e s x -> forall k, bind (cParseUnit s (ref_of e)) k c = k x c :> (cursor * outcome style)).
  { intros e s x Hx kk. apply bind_step. unfold cParseUnit. rewrite Hvb. f_equal. exact (resolveUnit_length _ _ _ _ Hx). }
  destruct H.
  16:{ destruct (parseTransform_text v fs c par rest H Hst) as (c' & Hc & Hb).
    exists c'. split; [|exact Hb]. unfold readStyleAttr. cbn [String.eqb Ascii.eqb Bool.eqb orb negb].
    erewrite bind_step by exact Hc. fin. }
  all: try (exists c; split; [|apply sbp_refl]; unfold readStyleAttr; cbn [String.eqb Ascii.eqb Bool.eqb orb negb]).
  - rewrite (is_paint_fill grads _ v p) by assumption. fin.
  - rewrite (is_paint_fill grads _ v p) by assumption. fin.
  - fin.
  - fin.
  - rewrite (cap_word _ _ H). fin.
  - rewrite (cap_word _ _ H). fin.
  - rewrite (gap_word _ _ H). fin.
  - rewrite (join_word _ _ H). fin.
  - erewrite bind_step by (unfold lift; rewrite (number_value v x H); reflexivity). fin.
  - rewrite (Hlen OfWidth v x H). fin.
  - rewrite (Hlen OfDiagonal v x H). fin.
  - apply String.eqb_neq in H. rewrite H. cbn [negb].
    erewrite bind_step by (apply (dashes_ok vb); eassumption). fin.
  - erewrite bind_step by (unfold lift; rewrite (number_value v x H); reflexivity). fin.
  - erewrite bind_step by (unfold lift; rewrite (number_value v x H); reflexivity). fin.
  - erewrite bind_step by (unfold lift; rewrite (number_value v x H); reflexivity). fin.
  - unfold parts_named in H. cbn [List.find fst] in H.
    repeat match type of H with context [String.eqb k ?n] => destruct (String.eqb k n) eqn:?; [discriminate H|] end.
    cbn [orb]. reflexivity.
Qed.

(** ** from attributes to declarations *)
Definition readDecl (st : style) (d : string * string) : @C E style := readStyleAttr st (fst d) (snd d).
Lemma solid_ends w : no_blank_end w = true -> all_chars is_ascii w = true -> solid w = true.
Proof.
  intros H Ha. unfold no_blank_end in H. apply andb_prop in H as [Hf He]. apply negb_true_iff in He. rewrite ends_with_rev in He.
  unfold solid. assert (Ha' : all_chars is_ascii (rev_str w) = true) by (unfold rev_str; rewrite rev_acc_chars, Ha; reflexivity).
  apply andb_true_intro. split.
  - destruct w as [|c w]; [reflexivity|]. cbn [solid_front]. apply plain_of. cbn [all_chars] in Ha. apply andb_prop in Ha as [-> _]. exact Hf.
  - destruct (rev_str w) as [|c q]; [reflexivity|]. cbn [solid_front]. apply plain_of. cbn [all_chars] in Ha'. apply andb_prop in Ha' as [-> _]. rewrite He. reflexivity.
Qed.
Lemma padded_trim v w : padded v w -> trimSpace v = w.
Proof. intros (l & r & -> & Hl & Hr & Hw & Ha). apply trimSpace_pad; auto using solid_ends. Qed.
Lemma padded_ascii v w : padded v w -> all_chars is_ascii v = true.
Proof. intros (l & r & -> & Hl & Hr & Hw & Ha). rewrite !all_chars_app, Ha, (blank_ascii l), (blank_ascii r) by assumption. reflexivity. Qed.
Lemma low_blank_char c : is_blank (lower_ascii c) = is_blank c.
Proof.
  destruct c as [b0 b1 b2 b3 b4 b5 b6 b7].
  destruct b0, b1, b2, b3, b4, b5, b6, b7; reflexivity.
Qed.
Lemma low_blank s : blank (low_case s) = blank s.
Proof. unfold blank, low_case. induction s as [|c s IH]; [reflexivity|]. cbn [map_chars all_chars]. rewrite low_blank_char, IH. reflexivity. Qed.
Lemma low_ends s : ends_with is_blank (low_case s) = ends_with is_blank s.
Proof.
  unfold low_case. induction s as [|c [|d s] IH]; [reflexivity|cbn; apply low_blank_char|].
  cbn [map_chars ends_with] in *. exact IH.
Qed.
Lemma padded_low v w : padded v w -> padded (low_case v) (low_case w).
Proof.
  intros (l & r & -> & Hl & Hr & Hw & Ha). exists (low_case l), (low_case r). rewrite !low_case_app, !low_blank, low_ascii.
  repeat split; auto. unfold no_blank_end in *. rewrite low_ends. destruct w as [|c w]; [exact Hw|].
  cbn [low_case map_chars]. rewrite low_blank_char. exact Hw.
Qed.
Lemma key_reads n k : padded n k -> trimSpace (toLower E n) = low_case k.
Proof. intros H. rewrite toLower_low by (eapply padded_ascii; eauto). apply padded_trim, padded_low, H. Qed.
Lemma split_two n v : lacks ":" n = true -> exists q, split1 ":" (n ++ ":" ++ v) = n :: q /\ split1 ":" v = q.
Proof. intros H. exists (split1 ":" v). split; [apply split1_cons; exact H|reflexivity]. Qed.
Lemma decl_text_reads s ds : decl_text s ds -> forall st c, stylePair (E := E) st s c = foldM readDecl st ds c.
Proof.
  intros H st c. unfold stylePair. destruct H as [n v k w Hn Hv Cn Cv|s Hs].
  - destruct (split_two n v Cn) as (q & -> & Hq). rewrite split1_none in Hq by exact Cv. subst q.
    rewrite (key_reads n k), (padded_trim v w) by assumption. cbn [foldM]. unfold bind, readDecl. cbn [fst snd].
    destruct (readStyleAttr st (low_case k) w c) as [c' [a|e| |]]; reflexivity.
  - rewrite split1_none by exact Hs. reflexivity.
Qed.
Lemma foldM_flat {A} (f : style -> A -> @C E style) (l : list A) (l' : list (string * string)) :
  (forall st c, foldM f st l c = foldM readDecl st l' c) -> forall r r', 
  (forall st c, foldM f st r c = foldM readDecl st r' c) ->
  forall st c, foldM f st (l ++ r) c = foldM readDecl st (l' ++ r') c.
Proof.
  intros H r r' Hr st c. rewrite !foldM_app. unfold bind. rewrite H. destruct (foldM readDecl st l' c) as [c' [a|e| |]]; auto.
Qed.
Lemma foldM_one {A} (f : style -> A -> @C E style) x ds : (forall st c, f st x c = foldM readDecl st ds c) ->
  forall st c, foldM f st [x] c = foldM readDecl st ds c.
Proof. intros H st c. cbn [foldM]. unfold bind. rewrite H. destruct (foldM readDecl st ds c) as [c' [a|e| |]]; reflexivity. Qed.
Lemma style_text_reads v ds : style_text v ds -> forall st c, foldM stylePair st (split1 ";" v) c = foldM readDecl st ds c.
Proof.
  induction 1 as [s ds Hs Hd|s ds t ds' Hs Hd _ IH].
  - rewrite split1_none by exact Hs. apply foldM_one, decl_text_reads, Hd.
  - change (s ++ ";" ++ t)%string with (s ++ String ";" t)%string. rewrite split1_cons by exact Hs.
    change (s :: split1 ";" t) with ([s] ++ split1 ";" t). apply foldM_flat; [|exact IH].
    apply foldM_one, decl_text_reads, Hd.
Qed.
Lemma attrs_reads l ds : attrs_decls l ds -> forall st c, foldM stylePair st (stylePairs (E := E) l) c = foldM readDecl st ds c.
Proof.
  induction 1 as [|a ds l ds' Ha _ IH]; [reflexivity|].
  cbn [stylePairs flat_map]. apply foldM_flat; [|exact IH]. clear IH.
  destruct Ha as [n v ds Hn Hv|n k v w Hn Pn Pv Cn Cv|n k v Hn Pn Cn Hk]; cbn [a_name a_val].
  - rewrite toLower_low by (rewrite <- low_ascii, Hn; reflexivity). rewrite Hn. cbn [String.eqb Ascii.eqb Bool.eqb].
    apply style_text_reads. exact Hv.
  - rewrite toLower_low by (eapply padded_ascii; eauto). apply String.eqb_neq in Hn. rewrite Hn.
    apply foldM_one, decl_text_reads. constructor; assumption.
  - rewrite toLower_low by (eapply padded_ascii; eauto). apply String.eqb_neq in Hn. rewrite Hn.
    apply foldM_one. intros st c. unfold stylePair. destruct (split_two n v Cn) as (q & -> & Hq).
    destruct q as [|v' q]; [exact (match split1_ne _ _ Hq with end)|].
    rewrite (key_reads n k Pn). cbn [foldM].
    unfold readStyleAttr. unfold parts_named in Hk. cbn [List.find fst] in Hk.
    repeat match type of Hk with context [String.eqb (low_case k) ?n] => destruct (String.eqb (low_case k) n) eqn:?; [discriminate Hk|] end.
    cbn [orb]. reflexivity.
Qed.

(** ** a list of declarations, and pushStyle *)
Lemma sbp_same (c c' : cursor) : same_but_points c c' -> c_svg c' = c_svg c /\ c_stack c' = c_stack c /\ c_gheap c' = c_gheap c.
Proof. intros [ps ->]. auto. Qed.
Lemma decls_ok vb grads par st ds st' : decls E vb grads par st ds st' -> forall (c : cursor) rest,
  sv_viewBox (c_svg c) = vb -> sees c grads -> c_stack c = par :: rest ->
  exists c', foldM readDecl st ds c = (c', Ret st') /\ same_but_points c c'.
Proof.
  induction 1 as [st|st k v us ds st' Hd _ IH]; intros c rest Hvb Hs Hst.
  - exists c. split; [reflexivity|apply sbp_refl].
  - destruct (decl_ok _ _ _ _ _ _ _ c rest Hd Hvb Hs Hst) as (c1 & H1 & B1).
    destruct (sbp_same _ _ B1) as (S1 & S2 & S3).
    destruct (IH c1 rest) as (c2 & H2 & B2).
    { rewrite S1. exact Hvb. } { unfold sees. rewrite S1, S3. exact Hs. } { rewrite S2. exact Hst. }
    exists c2. split; [|eapply sbp_trans; eauto]. cbn [foldM].
    erewrite bind_step by (unfold readDecl; cbn [fst snd]; exact H1). exact H2.
Qed.
Theorem pushStyle_decls vb grads par attrs ds st' (c : cursor) rest :
  attrs_decls attrs ds -> decls E vb grads par par ds st' ->
  sv_viewBox (c_svg c) = vb -> sees c grads -> c_stack c = par :: rest ->
  exists ps, pushStyle attrs c = (c_set_stack (st' :: par :: rest) (c_set_pc (set_points ps (c_pc c)) c), Ret tt).
Proof.
  intros Ha Hd Hvb Hs Hst. unfold pushStyle.
  erewrite bind_step by (unfold topStyle; rewrite Hst; reflexivity).
  destruct (decls_ok _ _ _ _ _ _ Hd c rest Hvb Hs Hst) as (c1 & H1 & ps & ->).
  erewrite bind_step by (rewrite (attrs_reads _ _ Ha); exact H1). exists ps. unfold modify. cbn [c_stack c_set_pc]. rewrite Hst. reflexivity.
Qed.
End PS.

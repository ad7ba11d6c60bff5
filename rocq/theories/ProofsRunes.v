(** * ProofsRunes: number lists over UTF-8 (C69) *)
From Coq Require Import ZArith ZifyN Lia.
From Verif Require Import ProofsNum SpecRunes ProofsMistake2 ProofsMistake3.
From Verif Require Import ProofsMode ProofsSpell ProofsStyle ProofsColor ProofsUnit ProofsTok ProofsPath4.
Local Open Scope N_scope.
Ltac Zify.zify_post_hook ::= Z.div_mod_to_equations.

Lemma code_byte n : n < 256 -> code (ascii_of_N n) = n. Proof. exact (N_ascii_embedding n). Qed.
Lemma inr_byte lo hi n : n < 256 -> inr lo hi (ascii_of_N n) = ((lo <=? n) && (n <=? hi)).
Proof. intros H. unfold inr. rewrite (code_byte n H). reflexivity. Qed.
Ltac settle := repeat match goal with
  | |- context [(?a <=? ?b)%N] => first [rewrite (proj2 (N.leb_le a b)) by lia | rewrite (proj2 (N.leb_gt a b)) by lia]
  | |- context [(?a <? ?b)%N] => first [rewrite (proj2 (N.ltb_lt a b)) by lia | rewrite (proj2 (N.ltb_ge a b)) by lia]
  end; cbn [andb orb negb].
Lemma decode_encode r s : scalar r -> decode_rune (encode r ++ s) = (r, String.length (encode r)).
Proof.
  intros H. unfold encode.
  destruct (N.ltb_spec r 128).
  { cbn [append decode_rune]. cbv zeta. rewrite code_byte by lia. settle. reflexivity. }
  destruct (N.ltb_spec r 2048).
  { cbn [append decode_rune]. unfold cont. cbv zeta. rewrite !inr_byte, !code_byte by lia. settle. cbn [String.length]. f_equal. lia. }
  destruct (N.ltb_spec r 65536).
  { cbn [append decode_rune]. unfold cont. cbv zeta. rewrite !inr_byte, !code_byte by lia. settle.
    destruct (N.eqb_spec (224 + r / 4096) 224), (N.eqb_spec (224 + r / 4096) 237); try lia; unfold scalar in H; settle; cbn [String.length]. all: try (f_equal; lia). }
  cbn [append decode_rune]. unfold cont. cbv zeta. rewrite !inr_byte, !code_byte by (unfold scalar in H; lia). unfold scalar in H. settle.
  destruct (N.eqb_spec (240 + r / 262144) 240), (N.eqb_spec (240 + r / 262144) 244); try lia; settle; cbn [String.length]; f_equal; lia.
Qed.
Lemma encode_ne r : encode r <> ""%string.
Proof. unfold encode. destruct (r <? 128), (r <? 2048), (r <? 65536); discriminate. Qed.
Lemma dropn_app a s : dropn (String.length a) (a ++ s) = s. Proof. induction a; [destruct s; reflexivity|exact IHa]. Qed.
Definition enc (cs : list N) : list (N * string) := map (fun r => (r, encode r)) cs.
Lemma runesF_utf8 cs : Forall scalar cs -> forall n, (String.length (utf8 cs) <= n)%nat -> runesF n (utf8 cs) = enc cs.
Proof.
  induction 1 as [|r cs Hr _ IH]; intros n Hn; [destruct n; reflexivity|]. cbn [utf8] in *. rewrite len_app in Hn.
  pose proof (encode_ne r) as K. destruct (encode r) as [|a b] eqn:He; [congruence|]. cbn [String.length] in Hn. destruct n as [|n]; [lia|].
  pose proof (decode_encode r (utf8 cs) Hr) as Hd. rewrite He in Hd. cbn [append] in Hd |- *. cbn [runesF]. rewrite Hd.
  change (String a (b ++ utf8 cs)) with (String a b ++ utf8 cs)%string. rewrite substring_prefix by reflexivity. rewrite dropn_app. rewrite IH by lia.
  cbn [enc map]. rewrite He. reflexivity.
Qed.
Lemma runes_utf8 cs : Forall scalar cs -> runes (utf8 cs) = enc cs.
Proof. intros H. apply (runesF_utf8 cs H). auto. Qed.
Lemma utf8_app a b : utf8 (a ++ b) = (utf8 a ++ utf8 b)%string.
Proof. induction a as [|r a IH]; [reflexivity|]. cbn [utf8 app]. rewrite IH, sapp_assoc. reflexivity. Qed.
Lemma utf8_ne r cs : utf8 (r :: cs) <> ""%string.
Proof. cbn. pose proof (encode_ne r). destruct (encode r); [congruence|discriminate]. Qed.

(** ** the pieces *)
Definition wordchar (r : N) : Prop := decimal_digit r = true \/ r = 46 \/ r = 101 \/ r = 45.
Lemma wordchar_scalar r : wordchar r -> scalar r.
Proof. unfold wordchar, decimal_digit, scalar. rewrite andb_true_iff, !N.leb_le. lia. Qed.
Lemma belongs_word prev r : belongs prev r = true -> wordchar r.
Proof. unfold belongs, wordchar. rewrite !orb_true_iff, andb_true_iff, !N.eqb_eq. tauto. Qed.
Lemma pieces_chars cs : forall prev w, Forall wordchar w -> Forall (Forall wordchar) (pieces_of prev w cs).
Proof.
  induction cs as [|r cs IH]; intros prev w Hw; cbn [pieces_of]; [auto|].
  destruct (belongs prev r) eqn:Hb.
  - apply IH. apply Forall_app; split; [exact Hw|]. constructor; [exact (belongs_word _ _ Hb)|constructor].
  - constructor; [exact Hw|]. apply IH. destruct (N.eqb_spec r 45) as [->|]; [|constructor]. constructor; [right; right; right; reflexivity|constructor].
Qed.
Lemma undotted_chars cs : Forall wordchar cs -> forall d w, Forall wordchar w -> Forall (Forall wordchar) (undotted d w cs).
Proof.
  induction 1 as [|r cs Hr _ IH]; intros d w Hw; cbn [undotted]; [auto|].
  destruct ((r =? 46) && d); [constructor; [exact Hw|]|]; apply IH; auto. apply Forall_app. auto.
Qed.
Lemma rf_undotted cs : forall w first, rf (utf8 w) first (enc cs) = map utf8 (undotted (negb first) w cs).
Proof.
  induction cs as [|r cs IH]; intros w first; [reflexivity|]. cbn [enc map rf undotted]. fold (enc cs).
  assert (K : (utf8 w ++ encode r = utf8 (w ++ [r]))%string) by (rewrite utf8_app; cbn; rewrite sapp_nil_r; reflexivity).
  assert (K1 : encode r = utf8 [r]) by (cbn; rewrite sapp_nil_r; reflexivity).
  destruct (N.eqb_spec r 46) as [->|]; cbn [andb].
  - destruct first; cbn [negb].
    + rewrite K, IH. reflexivity.
    + cbn [map]. f_equal. rewrite K1, IH. reflexivity.
  - rewrite K, IH, orb_false_r. reflexivity.
Qed.
Lemma rfPieces_word w : Forall wordchar w -> rfPieces (utf8 w) = map utf8 (undotted false [] w).
Proof.
  intros H. unfold rfPieces. rewrite runes_utf8 by (eapply Forall_impl; [|exact H]; exact wordchar_scalar).
  apply (rf_undotted w [] true).
Qed.
Lemma numchar_byte r : wordchar r -> exists c, encode r = String c "" /\ numchar c = true.
Proof.
  intros H. assert (r < 128) by (unfold wordchar, decimal_digit in H; rewrite andb_true_iff, !N.leb_le in H; lia).
  exists (ascii_of_N r). unfold encode. rewrite (proj2 (N.ltb_lt r 128)) by lia. split; [reflexivity|].
  destruct H as [H|[->|[->| ->]]]; try reflexivity. unfold numchar, is_digit. unfold decimal_digit in H.
  rewrite (code_byte r) by lia. rewrite H. reflexivity.
Qed.
Lemma numchar_word w : Forall wordchar w -> all_chars numchar (utf8 w) = true.
Proof.
  induction 1 as [|r w Hr _ IH]; [reflexivity|]. cbn [utf8]. rewrite all_chars_app, IH, andb_true_r.
  destruct (numchar_byte r Hr) as (c & -> & Hc). cbn. rewrite Hc. reflexivity.
Qed.

Section S.
Context {E : Env}.
Lemma inNumber_belongs prev r : isNumber E r = decimal_digit r -> inNumber (E := E) prev r = belongs prev r.
Proof.
  intros H. unfold inNumber, belongs. rewrite H. destruct (decimal_digit r), (r =? 46), (r =? 101), (r =? 45), (prev =? 101); reflexivity.
Qed.
Definition curr (w : list N) : option string := match w with [] => None | _ => Some (utf8 w) end.
Lemma curr_pieces w : Forall wordchar w -> match curr w with Some s => rfPieces s | None => [] end
  = map utf8 (flat_map (undotted false []) (List.filter nonempty_word [w])).
Proof.
  intros H. destruct w as [|r w]; [reflexivity|]. unfold curr. rewrite rfPieces_word by exact H. cbn [List.filter nonempty_word flat_map]. rewrite app_nil_r. reflexivity.
Qed.
Lemma gp_words cs : Forall (fun r => isNumber E r = decimal_digit r) cs -> forall w prev, Forall wordchar w ->
  gp (E := E) (curr w) prev (enc cs) = map utf8 (flat_map (undotted false []) (List.filter nonempty_word (pieces_of prev w cs))).
Proof.
  induction 1 as [|r cs Hr _ IH]; intros w prev Hw; cbn [enc map gp pieces_of]; [apply curr_pieces, Hw|]. fold (enc cs).
  rewrite (inNumber_belongs prev r Hr). destruct (belongs prev r) eqn:Hb; cbn [negb].
  - rewrite <- IH. 2:{ apply Forall_app; split; [exact Hw|]. constructor; [exact (belongs_word _ _ Hb)|constructor]. }
    f_equal. destruct w as [|a w]; cbn [curr app]; [cbn; rewrite sapp_nil_r; reflexivity|].
    change (a :: w ++ [r])%list with ((a :: w) ++ [r])%list. rewrite utf8_app. cbn [utf8]. rewrite sapp_nil_r. reflexivity.
  - rewrite curr_pieces by exact Hw. change (w :: pieces_of r (if r =? 45 then [r] else []) cs)%list with ([w] ++ pieces_of r (if r =? 45 then [r] else []) cs)%list.
    rewrite filter_app, flat_map_app, map_app. f_equal.
    rewrite <- IH. 2:{ destruct (N.eqb_spec r 45) as [->|]; [|constructor]. constructor; [right; right; right; reflexivity|constructor]. }
    f_equal. destruct (r =? 45); cbn; rewrite ?sapp_nil_r; reflexivity.
Qed.
Lemma plain_scalar cs : plain_text E cs -> Forall scalar cs. Proof. intros H. eapply Forall_impl; [|exact H]. cbn. tauto. Qed.
Lemma numPieces_words cs : plain_text E cs -> numPieces (E := E) (utf8 cs) = number_words cs.
Proof.
  intros H. unfold numPieces. rewrite runes_utf8 by (apply plain_scalar, H).
  apply (gp_words cs) with (w := []) (prev := 32); [|constructor]. eapply Forall_impl; [|exact H]. cbn. tauto.
Qed.
Lemma words_numchar cs : Forall (fun w => all_chars numchar w = true) (number_words cs).
Proof.
  unfold number_words. apply Forall_map. apply Forall_flat_map.
  assert (H : Forall (Forall wordchar) (pieces_of 32 [] cs)) by (apply pieces_chars; constructor).
  rewrite Forall_forall in H |- *. intros w Hw. apply filter_In in Hw as [Hw _]. specialize (H w Hw).
  eapply Forall_impl; [|exact (undotted_chars w H false [] (Forall_nil _))]. exact numchar_word.
Qed.
Lemma parse_word w : all_chars numchar w = true ->
  parseBasicFloat (E := E) w = match word_value E w with Some v => Ret v | None => Err (ErrNumber w) end.
Proof.
  intros H. unfold parseBasicFloat, parseUnit. rewrite findUnit_numchar by exact H. unfold word_value. destruct (parseFloat E w); reflexivity.
Qed.
Lemma pushes_words l vs : Forall (fun w => all_chars numchar w = true) l -> Forall2 (fun w v => word_value E w = Some v) l vs ->
  pushes (E := E) l = (vs, Ret tt).
Proof.
  intros H. revert vs. induction H as [|w l Hw _ IH]; intros vs Hv; inversion Hv; subst; [reflexivity|].
  cbn [pushes]. rewrite parse_word by exact Hw. rewrite H1. rewrite (IH _ H3). reflexivity.
Qed.
Lemma pushes_wrong l w : Forall (fun w => all_chars numchar w = true) l -> List.In w l -> parseFloat E w = None ->
  exists e, snd (pushes (E := E) l) = Err e.
Proof.
  induction 1 as [|x l Hx _ IH]; intros Hi Hp; [destruct Hi|]. destruct Hi as [->|Hi].
  - cbn [pushes]. rewrite parse_word by exact Hx. unfold word_value. rewrite Hp. cbn. eauto.
  - cbn [pushes]. rewrite parse_word by exact Hx. destruct (word_value E x); [|cbn; eauto].
    destruct (IH Hi Hp) as (e & He). destruct (pushes l). cbn in *. eauto.
Qed.
Theorem number_list cs vs : plain_text E cs -> Forall2 (fun w v => word_value E w = Some v) (number_words cs) vs ->
  forall c, getPoints (E := E) (utf8 cs) c = (set_points vs c, Ret tt).
Proof.
  intros H Hv c. rewrite getPoints_numbers. unfold numbers. rewrite numPieces_words, (pushes_words _ vs (words_numchar cs) Hv) by exact H. reflexivity.
Qed.
Lemma numbers_wrong cs : wrong_list E cs -> exists e, snd (numbers (E := E) (utf8 cs)) = Err e.
Proof. intros (H & w & Hi & Hp). unfold numbers. rewrite numPieces_words by exact H. exact (pushes_wrong _ w (words_numchar cs) Hi Hp). Qed.
Theorem wrong_list_fails cs : wrong_list E cs -> forall c, exists e, snd (getPoints (E := E) (utf8 cs) c) = Err e.
Proof. intros H c. rewrite getPoints_numbers. exact (numbers_wrong cs H). Qed.

(** ** documents *)
Local Open Scope nat_scope.
Lemma getPoints_never cs : wrong_list E cs -> forall c : cursor E, exists c' e, cGetPoints (E := E) (utf8 cs) c = (c', Err e).
Proof.
  intros H c. unfold cGetPoints, liftP. destruct (wrong_list_fails cs H (c_pc c)) as (e & He). destruct (getPoints (utf8 cs) (c_pc c)) as [p o]. cbn in He. subst o. eauto.
Qed.
Lemma nv_viewBox_word l cs : wrong_list E cs -> never (svgAttr (E := E) l (mkAttr "viewBox" (utf8 cs))).
Proof.
  intros H c _ c' x. destruct l as [w h]. unfold svgAttr, is. cbn [a_name a_val String.eqb Ascii.eqb Bool.eqb].
  destruct (getPoints_never cs H c) as (c1 & e & He). erewrite bind_step by (unfold attempt; rewrite He; reflexivity).
  erewrite bind_step by (unfold cPoints, gets; reflexivity).
  destruct (pc_points (c_pc c1)) as [|? [|? [|? [|? [|? ?]]]]]; discriminate.
Qed.
Lemma nv_points_word l cs : wrong_list E cs -> never (polyAttr (E := E) l (mkAttr "points" (utf8 cs))).
Proof.
  intros H c _ c' x. unfold polyAttr, is. cbn [a_name a_val String.eqb Ascii.eqb Bool.eqb].
  destruct (getPoints_never cs H c) as (c1 & e & He). erewrite bind_step by (unfold attempt; rewrite He; reflexivity).
  erewrite bind_step by (unfold cPoints, gets; reflexivity). destruct (negb _); discriminate.
Qed.
(** path data *)
Lemma enc_app a b : enc (a ++ b) = (enc a ++ enc b)%list. Proof. apply map_app. Qed.
Lemma letter_command k : command_letter k -> isLetter E k && negb (k =? 101)%N = true.
Proof.
  intros [H Hn]. unfold isLetter. rewrite (proj2 (N.ltb_lt k 128)) by lia.
  apply N.eqb_neq in Hn. rewrite Hn, andb_true_r. destruct H as [[H1 H2]|[H1 H2]]; apply N.leb_le in H1, H2; rewrite H1, H2; cbn; rewrite ?orb_true_r; reflexivity.
Qed.
Lemma no_command_stays r : no_command E r -> isLetter E r && negb (r =? 101)%N = false.
Proof. intros [->|H]; [apply andb_false_r|rewrite H; reflexivity]. Qed.
Lemma sg_args cs after : Forall (no_command E) cs -> match after with [] => True | r :: _ => command_letter r end -> forall s,
  List.In (s ++ utf8 cs)%string (sg (E := E) (Some s) (enc (cs ++ after))).
Proof.
  intros H Ha. induction H as [|r cs Hr _ IH]; intros s; cbn [app utf8].
  - rewrite sapp_nil_r. destruct after as [|r after]; [left; reflexivity|]. cbn [enc map sg]. rewrite (letter_command r Ha). left. reflexivity.
  - cbn [enc map sg]. rewrite (no_command_stays r Hr). rewrite <- sapp_assoc. apply IH.
Qed.
Lemma sg_in before k cs after : command_letter k -> Forall (no_command E) cs -> match after with [] => True | r :: _ => command_letter r end -> forall cur,
  List.In (encode k ++ utf8 cs)%string (sg (E := E) cur (enc (before ++ k :: cs ++ after))).
Proof.
  intros Hk Hc Ha. induction before as [|r before IH]; intros cur; cbn [app enc map sg].
  - rewrite (letter_command k Hk). apply in_or_app. right. apply sg_args; assumption.
  - destruct (isLetter E r && negb (r =? 101)%N); [apply in_or_app; right|]; apply IH.
Qed.
Lemma mapM_each {S A} (f : A -> M S unit) l x : List.In x l -> (forall s s', f x s <> (s', Ret tt)) -> forall s s', mapM f l s <> (s', Ret tt).
Proof.
  intros Hi Hx. induction l as [|a l IH]; [destruct Hi|]. intros s s' H. cbn [mapM] in H. unfold bind in H.
  destruct (f a s) as [s1 [[]| | |]] eqn:Hf; try discriminate. destruct Hi as [->|Hi]; [exact (Hx _ _ Hf)|exact (IH Hi _ _ H)].
Qed.
Lemma command_byte k : command_letter k -> encode k = String (ascii_of_N k) "".
Proof. intros [H _]. unfold encode. rewrite (proj2 (N.ltb_lt k 128)) by lia. reflexivity. Qed.
Lemma wrong_path before k cs after : Forall scalar before -> Forall scalar after -> command_letter k -> Forall (no_command E) cs -> wrong_list E cs ->
  match after with [] => True | r :: _ => command_letter r end ->
  forall c c', compilePath (E := E) (utf8 (before ++ k :: cs ++ after)) c <> (c', Ret tt).
Proof.
  intros Hb Haf Hk Hc Hw Ha c c' H. rewrite compilePath_segments in H. unfold bind in H. destruct (pinit c) as [c1 [[]| | |]]; try discriminate.
  revert H. apply (mapM_each _ _ (encode k ++ utf8 cs)%string).
  - unfold segments. rewrite runes_utf8; [apply sg_in; assumption|]. apply Forall_app; split; [exact Hb|]. constructor; [destruct Hk as [Hk _]; unfold scalar; lia|].
    apply Forall_app; split; [apply plain_scalar, Hw|exact Haf].
  - intros s s' H. rewrite (command_byte k Hk) in H. cbn [append] in H. rewrite addSeg_eq in H. destruct (numbers_wrong cs Hw) as (e & He). rewrite He in H. discriminate.
Qed.
Theorem wrong_numbers_fail fuel mode pre name attrs post tm : flat_defs pre -> is_definition pre name = false -> wrong_numbers E name attrs ->
  forall s log, parse (E := E) fuel mode (pre ++ TStart name attrs :: post) tm <> PSvg s None log.
Proof.
  intros Hf Hd Hb. apply start_fails; [exact Hf|exact Hd| |].
  - intros df c Hdf _ c' H. revert H. apply (fun m (Q : never m) => Q c I c' tt). destruct Hb as [attrs cs Hi Hw|name attrs cs Hn Hi Hw|attrs before k cs after Hi H1 H2 H3 H4 H5 H6].
    + injection Hdf as <-. apply nv_svg. intros l. eapply fl_foldM; [intros; apply kept_any| |exact Hi]. intros l1. apply nv_viewBox_word, Hw.
    + assert (K : never (polylineF (E := E) attrs))
        by (unfold polylineF; apply fl_bind_l; eapply fl_foldM; [intros; apply kept_any| |exact Hi]; intros l1; apply nv_points_word, Hw).
      destruct Hn as [-> | ->]; injection Hdf as <-; [exact K|]. unfold polygonF. intros c0 _ c1 x. unfold bind at 1, attempt.
      destruct (polylineF attrs c0) as [c2 [[]|e| |]] eqn:H1; try discriminate.
      * exfalso. exact (K c0 I c2 tt H1).
      * apply (fun m (Q : never m) => Q c2 I c1 x). do 2 (apply fl_bind_r; [apply kept_any|]; intros ?). apply fl_raise.
    + injection Hdf as <-. unfold pathF. eapply fl_mapM; [intros; apply kept_any| |exact Hi].
      intros c0 _ c1 x. unfold is. cbn [a_name a_val String.eqb Ascii.eqb Bool.eqb]. unfold liftP. destruct x.
      destruct (compilePath _ (c_pc c0)) as [p [[]| | |]] eqn:Hp; try discriminate. destruct (wrong_path before k cs after H1 H2 H3 H4 H5 H6 _ _ Hp).
  - intros c Hn. apply known_name in Hn. exfalso. apply Hn. destruct Hb as [| ? ? ? [-> | ->]|]; cbn; tauto.
Qed.

(** arguments of transform functions *)
Lemma trail_split s : all_chars is_ascii s = true -> exists a t, s = (a ++ t)%string /\ blank t = true
  /\ (a = ""%string \/ exists c q, rev_str a = String c q /\ plain c = true).
Proof.
  induction s as [|c s IH]; intros H; [exists ""%string, ""%string; auto|]. cbn [all_chars] in H. apply andb_prop in H as [Hc Hs].
  destruct (IH Hs) as (a & t & -> & Bt & Ha). destruct Ha as [->|(k & q & Hk & Hp)].
  - destruct (is_blank c) eqn:Hb.
    + exists ""%string, (String c t). split; [reflexivity|]. unfold blank. cbn [all_chars]. rewrite Hb. auto.
    + exists (String c ""), t. split; [reflexivity|]. split; [exact Bt|]. right. exists c, ""%string. split; [reflexivity|].
      unfold plain. rewrite Hc, (ascii_space _ Hc), Hb. reflexivity.
  - exists (String c a), t. split; [reflexivity|]. split; [exact Bt|]. right. exists k, (q ++ String c "")%string. rewrite rev_cons, Hk. auto.
Qed.
Lemma gp_blank t : blank t = true -> forall cur lr, gp (E := E) cur lr (ascii_runes t) = match cur with Some s => rfPieces s | None => [] end.
Proof.
  unfold blank. induction t as [|c t IH]; intros H cur lr; [reflexivity|]. cbn [all_chars] in H. apply andb_prop in H as [Hc Ht].
  cbn [ascii_runes gp]. assert (K : inNumber (E := E) lr (code c) = false /\ (code c =? 45)%N = false).
  { unfold is_blank in Hc. apply existsb_exists in Hc as (x & Hx & He). apply Ascii.eqb_eq in He. subst x.
    cbn in Hx. repeat (destruct Hx as [<-|Hx]; [split; reflexivity|]). destruct Hx. }
  destruct K as [-> ->]. cbn [negb]. rewrite (IH Ht), app_nil_r. reflexivity.
Qed.
Lemma gp_trail l t : blank t = true -> forall cur lr, gp (E := E) cur lr (l ++ ascii_runes t) = gp (E := E) cur lr l.
Proof.
  intros Ht. induction l as [|[r b] l IH]; intros cur lr; cbn [app gp]; [apply gp_blank, Ht|].
  destruct (negb (inNumber lr r)); rewrite IH; reflexivity.
Qed.
Lemma numbers_trail a t : all_chars is_ascii (a ++ t) = true -> blank t = true -> numbers (E := E) (a ++ t) = numbers (E := E) a.
Proof.
  intros H Ht. unfold numbers, numPieces. rewrite runes_ascii, ascii_runes_app, gp_trail by assumption. rewrite all_chars_app in H. apply andb_prop in H as [H _].
  rewrite runes_ascii by exact H. reflexivity.
Qed.
Lemma utf8_chars (p : ascii -> bool) cs : Forall (fun r => (r < 128)%N /\ p (ascii_of_N r) = true) cs -> all_chars p (utf8 cs) = true.
Proof.
  induction 1 as [|r cs [Hr Hp] _ IH]; [reflexivity|]. cbn [utf8]. unfold encode. rewrite (proj2 (N.ltb_lt r 128)) by lia. cbn [append all_chars]. rewrite Hp. cbn [andb]. exact IH.
Qed.
Lemma nv_step_wrong m l name b cs : blank l = true -> blank b = true -> name <> ""%string -> all_chars (fun c => is_alpha c) name = true ->
  Forall (fun r => (r < 128 /\ r <> 40 /\ r <> 41)%N) cs -> wrong_list E cs ->
  never (transformStep (E := E) m (l ++ name ++ b ++ "(" ++ utf8 cs)).
Proof.
  intros Hl Hb Nne Hn Hc Hw. destruct (alpha_word _ Hn) as (Np & No & Nc & Nas).
  assert (HA : all_chars is_ascii (utf8 cs) = true).
  { apply utf8_chars. eapply Forall_impl; [|exact Hc]. cbn. intros r H. split; [tauto|]. unfold is_ascii. rewrite code_byte by lia. apply N.ltb_lt. tauto. }
  assert (HO : no_char "(" (utf8 cs) = true).
  { apply utf8_chars. eapply Forall_impl; [|exact Hc]. cbn. intros r H. split; [tauto|]. apply negb_true_iff, Ascii.eqb_neq. intros K. apply (f_equal code) in K.
    rewrite code_byte in K by lia. change (code "(") with 40%N in K. tauto. }
  destruct (numbers_wrong cs Hw) as (e & He). destruct (trail_split _ HA) as (a & t & Ea & Ht & Ha). rewrite Ea in HO, HA, He |- *.
  rewrite numbers_trail in He by assumption. destruct Ha as [->|(k & q & Hk & Hp)]; [discriminate|].
  rewrite no_char_app in HO. apply andb_prop in HO as [HO _].
  unfold transformStep.
  replace (l ++ name ++ b ++ "(" ++ a ++ t)%string with (l ++ (name ++ b ++ "(" ++ a) ++ t)%string by (rewrite !sapp_assoc; cbn; rewrite ?sapp_assoc; reflexivity).
  assert (Hsol : solid (name ++ b ++ "(" ++ a) = true).
  { apply solid_app; auto.
    - apply front_chars. exact Np.
    - destruct (last_app "(" _ _ _ Hk) as (q1 & H1). destruct (last_app b _ _ _ H1) as (q2 & H2). rewrite H2. exact Hp.
    - destruct b; discriminate. }
  rewrite trimSpace_pad by assumption.
  assert (Hlen : (String.length (name ++ b ++ "(" ++ a) =? 0) = false) by (destruct name; [congruence|reflexivity]).
  cbv zeta. rewrite Hlen.
  assert (Hs : split1 "(" (name ++ b ++ "(" ++ a) = [(name ++ b)%string; a]).
  { replace (name ++ b ++ "(" ++ a)%string with ((name ++ b) ++ String "(" a)%string by (rewrite !sapp_assoc; reflexivity).
    rewrite split1_cons, split1_none; [reflexivity|exact HO|]. rewrite no_char_app, No, (blank_no "(" b); auto. }
  rewrite Hs.
  assert (Hla : (String.length a <? 1) = false) by (destruct a; [discriminate Hk|reflexivity]).
  rewrite Hla. intros c _ c' x. unfold bind at 1. unfold liftP. rewrite getPoints_numbers, He. discriminate.
Qed.
Lemma nv_transform_wrong v : wrong_arguments E v -> never (parseTransform (E := E) v).
Proof.
  intros (before & l & name & m & cs & after & -> & Hb & Bl & Bm & Nn & Na & Hc & Hw). unfold parseTransform. apply fl_bind_r; [apply kept_any|]. intros top.
  apply (fl_foldM _ _ (l ++ name ++ m ++ "(" ++ utf8 cs)%string); [intros; apply kept_any|intros; now apply nv_step_wrong|].
  apply in_rev. rewrite rev_involutive.
  replace (before ++ l ++ name ++ m ++ "(" ++ utf8 cs ++ ")" ++ after)%string with (before ++ (l ++ name ++ m ++ "(" ++ utf8 cs) ++ String ")" after)%string
    by (rewrite !sapp_assoc; reflexivity).
  apply piece_in; eauto. destruct (alpha_word _ Na) as (_ & _ & Nc & _).
  rewrite !no_char_app, (blank_no ")" l), (blank_no ")" m), Nc; auto. cbn.
  apply utf8_chars. eapply Forall_impl; [|exact Hc]. cbn. intros r H. split; [tauto|]. apply negb_true_iff, Ascii.eqb_neq. intros K. apply (f_equal code) in K.
  rewrite code_byte in K by lia. change (code ")") with 41%N in K. tauto.
Qed.
Theorem wrong_transform_fails fuel mode pre name attrs post tm a ds v : List.In a attrs -> attr_decls a ds -> List.In ("transform"%string, v) ds -> wrong_arguments E v ->
  forall s log, parse (E := E) fuel mode (pre ++ TStart name attrs :: post) tm <> PSvg s None log.
Proof.
  intros Ha Hd Hi Hb. apply not_accepted. intros c _ c' H. cbn [stepToken] in H. apply bindC in H as (c1 & [] & H1 & _).
  revert H1. refine (fl_push _ a ds "transform" v attrs _ _ Ha Hd Hi _ c I c1 tt); intros; try apply kept_any.
  unfold readStyleAttr. cbn [String.eqb Ascii.eqb Bool.eqb orb]. apply fl_bind_l, nv_transform_wrong, Hb.
Qed.
End S.

(** * ProofsValid: which elements are accepted (C74) *)
From Coq Require Import ZArith Lia.
From Verif Require Import ProofsGrad ProofsStr ProofsUnit ProofsColor ProofsStyle ProofsMistake ProofsMistake2 ProofsMistake3 ProofsTrans ProofsTok ProofsFuel ProofsData ProofsLocal.
From Verif Require Export ProofsValid2.
Local Open Scope go_scope.
Local Open Scope nat_scope.

Section Accept.
Context {E : Env} (md : errorMode) (fuel kt : nat) (Hturns : turns (E := E) kt) (Hkt : kt <= fuel) (Hurl : lower_url E).
Notation F := (F E).
Notation cursor := (cursor E).
Notation C := (@C E).
Notation J := (J (E := E) md).
Notation tw2 := (tw2 (E := E) md).

(** [m] leaves the state in order, and is fine exactly if [P] *)
Definition acc f f' {A} (P : Prop) (m : C A) : Prop := forall n l c, J f n l c -> (exists l', J f' n l' (fst (m c))) /\ (rets (snd (m c)) <-> P).
Lemma acc_iff f f' {A} P Q (m : C A) : (P <-> Q) -> acc f f' P m -> acc f f' Q m.
Proof. intros H K n l c Hc. destruct (K n l c Hc) as [K1 K2]. split; [exact K1|]. rewrite K2. exact H. Qed.
Lemma acc_tw f f' {A} P (m : C A) : tw2 f f' anyv m m -> (forall n l c, J f n l c -> (rets (snd (m c)) <-> P)) -> acc f f' P m.
Proof. intros H K n l c Hc. destruct (H n n l l c c Hc Hc) as (d & D & _). split; [exists (l ++ d); exact D|]. exact (K n l c Hc). Qed.
Lemma acc_bind f f' {A B} P Q (m : C A) (k : A -> C B) : acc f f' P m -> (forall a, acc f' f' Q (k a)) -> acc f f' (P /\ Q) (bind m k).
Proof.
  intros H K n l c Hc. destruct (H n l c Hc) as [(l1 & H1) H2]. unfold bind. destruct (m c) as [c1 o]. cbn [fst snd] in *.
  destruct o as [a|e| |]; cbn [fst snd].
  - destruct (K a n l1 c1 H1) as [(l2 & K1) K2]. split; [exists l2; exact K1|]. rewrite K2. split; [|tauto]. intros Hq. split; [apply H2; eexists; reflexivity|exact Hq].
  - split; [exists l1; exact H1|]. split; [intros (x & Hx); discriminate|]. intros [Hp _]. apply H2 in Hp as (x & Hx). discriminate.
  - split; [exists l1; exact H1|]. split; [intros (x & Hx); discriminate|]. intros [Hp _]. apply H2 in Hp as (x & Hx). discriminate.
  - split; [exists l1; exact H1|]. split; [intros (x & Hx); discriminate|]. intros [Hp _]. apply H2 in Hp as (x & Hx). discriminate.
Qed.
Lemma acc_l f f' {A B} P (m : C A) (k : A -> C B) : acc f f' P m -> (forall a, acc f' f' True (k a)) -> acc f f' P (bind m k).
Proof. intros H K. apply (acc_iff _ _ (P /\ True)); [tauto|]. apply acc_bind; assumption. Qed.
Lemma acc_r f f' {A B} P (m : C A) (k : A -> C B) : acc f f' True m -> (forall a, acc f' f' P (k a)) -> acc f f' P (bind m k).
Proof. intros H K. apply (acc_iff _ _ (True /\ P)); [tauto|]. apply acc_bind; assumption. Qed.
Lemma acc_ret f {A} (P : Prop) (a : A) : P -> acc f f P (ret a : C A).
Proof. intros HP n l c H. split; [exists l; exact H|]. split; [auto|intros _; eexists; reflexivity]. Qed.
Lemma acc_raise f {A} (P : Prop) e : ~ P -> acc f f P (raise e : C A).
Proof. intros HP n l c H. split; [exists l; exact H|]. split; [intros (x & Hx); discriminate|contradiction]. Qed.
Lemma acc_lift f {A} P (o : outcome A) : (rets o <-> P) -> acc f f P (lift o : C A).
Proof. intros HP n l c H. split; [exists l; exact H|exact HP]. Qed.
Lemma acc_calm f m : calmly md f m -> acc f f True m.
Proof. intros K n l c H. destruct (K n l c H) as (c' & -> & H'). split; [exists l; exact H'|]. split; [auto|intros _; eexists; reflexivity]. Qed.
Lemma acc_fold f {X A} (Q : X -> Prop) (u : A -> X -> C A) xs : (forall a x, List.In x xs -> acc f f (Q x) (u a x)) -> forall a, acc f f (Forall Q xs) (foldM u a xs).
Proof.
  induction xs as [|x xs IH]; intros H a; cbn [foldM]; [apply acc_ret; constructor|].
  apply (acc_iff _ _ (Q x /\ Forall Q xs)). { split; [intros []; constructor; assumption|]. intros K. inversion K; auto. }
  apply acc_bind; [apply H; left; reflexivity|]. intros b. apply IH. intros a' x' Hx. apply H. right. exact Hx.
Qed.
Lemma acc_mapM f {X} (Q : X -> Prop) (u : X -> C unit) xs : (forall x, List.In x xs -> acc f f (Q x) (u x)) -> acc f f (Forall Q xs) (mapM u xs).
Proof.
  induction xs as [|x xs IH]; intros H; cbn [mapM]; [apply acc_ret; constructor|].
  apply (acc_iff _ _ (Q x /\ Forall Q xs)). { split; [intros []; constructor; assumption|]. intros K. inversion K; auto. }
  apply acc_bind; [apply H; left; reflexivity|]. intros _. apply IH. intros x' Hx. apply H. right. exact Hx.
Qed.
Lemma acc_attempt f f' P (m k : C unit) : acc f f' P m -> acc f' f' True k -> acc f f' P (err <- attempt m ;; k ;; match err with Some e => raise e | None => ret tt end).
Proof.
  intros H K n l c Hc. destruct (H n l c Hc) as [(l1 & H1) H2]. 
  pose (R := fun err : option goerr => k ;; match err with Some e => raise e | None => ret tt end).
  assert (Q : bind (attempt m) R c = match m c with (c1, Ret _) => R None c1 | (c1, Err e) => R (Some e) c1 | (c1, Panic) => (c1, Panic) | (c1, NoFuel) => (c1, NoFuel) end)
    by (unfold bind at 1, attempt; destruct (m c) as [? []]; reflexivity).
  change ((exists l', J f' n l' (fst (bind (attempt m) R c))) /\ (rets (snd (bind (attempt m) R c)) <-> P)). rewrite Q. clear Q.
  destruct (m c) as [c1 o]. cbn [fst snd] in *.
  destruct o as [[]|e| |].
  - destruct (acc_r f' f' True k (fun _ => ret tt) K (fun _ => acc_ret f' True tt I) n l1 c1 H1) as [K1 K2]. split; [exact K1|]. eapply iff_trans; [exact K2|]. rewrite <- H2. split; [intros _; eexists; reflexivity|auto].
  - destruct (acc_r f' f' (B := unit) False k (fun _ => raise e) K (fun _ => acc_raise f' False e (fun x => x)) n l1 c1 H1) as [K1 K2]. split; [exact K1|]. eapply iff_trans; [exact K2|]. rewrite <- H2. split; [intros []|intros (x & Hx); discriminate].
  - split; [exists l1; exact H1|]. rewrite <- H2. split; intros (x & Hx); discriminate.
  - split; [exists l1; exact H1|]. rewrite <- H2. split; intros (x & Hx); discriminate.
Qed.
Lemma acc_unit f v w : all_chars is_ascii v = true -> acc f f (valid_length E v) (cParseUnit v w).
Proof. intros Ha. apply acc_tw; [apply tw_unit|]. intros n l c _. unfold cParseUnit. cbn [snd]. apply resolve_iff, Ha. Qed.
Lemma acc_float f v : all_chars is_ascii v = true -> acc f f (valid_length E v) (lift (parseBasicFloat (E := E) v) : C F).
Proof. intros Ha. apply acc_lift, float_iff, Ha. Qed.
Lemma acc_handle f s : acc f f (md <> StrictErrorMode) (handleError (E := E) s).
Proof.
  apply acc_tw; [apply tw_handle|]. intros n l c H. unfold handleError, bind, gets. rewrite (j_mode _ _ _ _ _ H).
  destruct md; cbn; (split; [intros (x & Hx); congruence|intros Hn; try congruence; eexists; reflexivity]).
Qed.
Lemma acc_top f : acc f f True (topStyle (E := E)).
Proof.
  apply acc_tw; [apply tw_top|]. intros n l c H. unfold topStyle. pose proof (j_stack _ _ _ _ _ H). destruct (c_stack c); [discriminate|]. cbn. split; [auto|intros _; eexists; reflexivity].
Qed.
Lemma acc_transform f v : all_chars is_ascii v = true -> acc f f (exists fs, transform_reads_as E v fs) (parseTransform (E := E) v).
Proof.
  intros Ha. apply acc_tw; [apply tw_transform|]. intros n l c H. pose proof (j_stack _ _ _ _ _ H). destruct (c_stack c) as [|par rest] eqn:Hs; [discriminate|].
  rewrite <- (proj1 (transform_accepted v c par rest Ha Hs)). unfold rets. split.
  - intros (m & Hm). exists (fst (parseTransform v c)), m. rewrite <- Hm. apply surjective_pairing.
  - intros (c' & m & ->). exists m. reflexivity.
Qed.
Lemma acc_append f a s : acc f f True (appendStr (E := E) a s).
Proof. apply acc_tw; [apply tw_append|]. intros n l c _. unfold appendStr. destruct (_ <? _); cbn; (split; [auto|intros _; eexists; reflexivity]). Qed.

(** ** Styles *)
Lemma acc_dashes f l : Forall (fun s => all_chars is_ascii s = true) l -> acc f f (Forall (valid_length E) l) (parseDashes (E := E) l).
Proof.
  induction 1 as [|s l Ha _ IH]; cbn [parseDashes]; [apply acc_ret; constructor|].
  apply (acc_iff _ _ (valid_length E s /\ Forall (valid_length E) l)). { split; [intros []; constructor; assumption|]. intros K. inversion K; auto. }
  apply acc_bind. { apply (acc_iff _ _ _ _ _ (length_trim s Ha)). apply acc_unit, trim_ascii, Ha. }
  intros d. apply acc_l; [exact IH|]. intros ds. apply acc_ret. exact I.
Qed.
Lemma url_low v : all_chars is_ascii v = true -> hasPrefix v "url(" = true -> hasPrefix (low_case v) "url" = true.
Proof. intros Ha H. rewrite <- (toLower_low E v Ha). apply Hurl, H. Qed.
Lemma acc_paint f v p (st : style E) (u : option (pattern E) -> style E -> style E) (g0 : gradient E -> style E) : all_chars is_ascii v = true -> acc f f (valid_colour E v)
  (g <- readGradURL v p ;; match g with Some g => ret (g0 g) | None => col <- lift (parseSVGColor (E := E) v) ;; ret (u (asPattern col) st) end).
Proof.
  intros Ha. unfold readGradURL. destruct (hasPrefix v "url(" && hasSuffix v ")") eqn:Hp.
  - apply andb_prop in Hp as [Hp Hs].
    assert (V : valid_colour E v) by (left; apply url_low; assumption).
    assert (Hc : exists col, parseSVGColor (E := E) v = Ret col) by (apply (colour_iff v Ha), V).
    assert (K : forall x : option (gradient E), acc f f (valid_colour E v) (match x with Some g => ret (g0 g) | None => col <- lift (parseSVGColor (E := E) v) ;; ret (u (asPattern col) st) end : C (style E))).
    { intros [g|]; [apply acc_ret, V|]. apply acc_l; [apply acc_lift, colour_iff, Ha|]. intros. apply acc_ret. exact I. }
    apply acc_r; [|exact K]. apply acc_tw.
    { pose proof (tw_gradURL md Hurl f v p p) as T. unfold readGradURL in T. rewrite Hp, Hs in T. cbn [andb] in T.
      intros n n' l l' c c' H H'. destruct (T n n' l l' c c' H H') as (d & D1 & D2 & D3). exists d. split; [exact D1|]. split; [exact D2|].
      revert D3. match goal with |- same _ ?a ?b -> same _ ?a ?b => destruct a, b; cbn; auto end. intros; exact I. }
    intros n l c H. split; [auto|]. intros _.
    apply suffix_iff in Hs as (q & Eq). apply prefix_iff in Hp as (r & Er).
    assert (Ev : exists s, v = ("url(" ++ s ++ ")")%string).
    { destruct (last_char r) as [->|(b & x & ->)].
      - exfalso. rewrite Er in Eq. destruct q as [|a1 [|a2 [|a3 [|a4 [|]]]]]; try discriminate.
      - assert (x = ")"%char); [|subst x; exists b; exact Er]. rewrite Er in Eq. replace ("url(" ++ b ++ String x "")%string with (("url(" ++ b) ++ String x "")%string in Eq by reflexivity.
        apply ends_one in Eq; [|discriminate]. cbn in Eq. apply Ascii.eqb_eq in Eq. exact Eq. }
    destruct Ev as (s & ->). unfold bind at 1, lift at 1.
    assert (Hsl : slice ("url(" ++ s ++ ")") 4 (String.length ("url(" ++ s ++ ")") - 1) = Ret s). { apply slice_mid; [reflexivity|]. rewrite !len_app. cbn. lia. }
    rewrite Hsl. cbv zeta. destruct (hasPrefix (trimSpace s) "#") eqn:Hh; [|eexists; reflexivity]. apply prefix_iff in Hh as (id & ->). unfold bind at 1, lift at 1.
    assert (Hsl2 : slice ("#" ++ id) 1 (String.length ("#" ++ id)) = Ret id) by (apply slice_tail; reflexivity). rewrite Hsl2. unfold bind, gets.
    destruct (mget id (sv_grads (c_svg c))) as [ptr|] eqn:Hg; [|eexists; reflexivity].
    pose proof (mget_forall (fun x => x < List.length (c_gheap c)) _ _ _ (j_grads _ _ _ _ _ H) Hg) as Hlt. cbv beta in Hlt. destruct (idx_in (c_gheap c) ptr Hlt) as (g & Hi). unfold lift. rewrite Hi. eexists. reflexivity.
  - assert (K : acc f f (valid_colour E v) (col <- lift (parseSVGColor (E := E) v) ;; ret (u (asPattern col) st) : C (style E))).
    { apply acc_l; [apply acc_lift, colour_iff, Ha|]. intros. apply acc_ret. exact I. }
    exact K.
Qed.
(** which values a declaration of each name takes *)
Ltac vdnum := match goal with H : List.In _ number_names |- _ => cbn in H; intuition discriminate end.
Ltac vdkey := match goal with H : List.In _ keywords |- _ => cbn in H; intuition discriminate end.
Ltac vdother := first [discriminate | vdnum | vdkey | match goal with H : _ \/ _ |- _ => destruct H; discriminate end].
Lemma vd_num k v : List.In k number_names -> (valid_decl E md k v <-> valid_length E v).
Proof.
  intros Hk. split; [intros K; exact (vd_number _ _ _ _ K Hk)|]. intros K. constructor; try (intros _; exact K); intros; cbn in Hk;
    (repeat (destruct Hk as [<-|Hk]; [solve [vdother]|])); destruct Hk.
Qed.
Lemma vd_key k ws v : List.In (k, ws) keywords -> (valid_decl E md k v <-> List.In v ws \/ md <> StrictErrorMode).
Proof.
  intros Hk. split; [intros K; exact (vd_keyword _ _ _ _ K ws Hk)|]. intros K. constructor; intros; cbn in Hk.
  1-5: repeat (destruct Hk as [Hk|Hk]; [injection Hk as <- <-; solve [vdother]|]); destruct Hk.
  match goal with H : List.In (k, ?ws') keywords |- _ => assert (Q : ws' = ws); [|rewrite Q; exact K]; cbn in H end.
  repeat (destruct Hk as [Hk|Hk]; [injection Hk as <- <-; intuition congruence|]). destruct Hk.
Qed.
Lemma vd_paint k v : k = "fill"%string \/ k = "stroke"%string -> (valid_decl E md k v <-> valid_colour E v).
Proof.
  intros Hk. split; [intros K; exact (vd_colour _ _ _ _ K Hk)|]. intros K. constructor; try (intros _; exact K); intros; destruct Hk as [-> | ->]; solve [vdother].
Qed.
Lemma vd_dash v : valid_decl E md "stroke-dasharray" v <-> valid_dashes E v.
Proof. split; [intros K; exact (vd_dashes _ _ _ _ K eq_refl)|]. intros K. constructor; try (intros _; exact K); intros; solve [vdother]. Qed.
Lemma vd_trans v : valid_decl E md "transform" v <-> exists fs, transform_reads_as E v fs.
Proof. split; [intros K; exact (vd_transform _ _ _ _ K eq_refl)|]. intros K. constructor; try (intros _; exact K); intros; solve [vdother]. Qed.
Lemma vd_sel v : valid_decl E md "mask" v <-> valid_selector v.
Proof. split; [intros K; exact (vd_mask _ _ _ _ K eq_refl)|]. intros K. constructor; try (intros _; exact K); intros; solve [vdother]. Qed.
Lemma acc_word {A} f k ws v (o : option A) (u : A -> style E) st s : List.In (k, ws) keywords -> (o <> None <-> List.In v ws) ->
  acc f f (valid_decl E md k v) (match o with Some g => ret (u g) | None => handleError s ;; ret st end : C (style E)).
Proof.
  intros Hk Ho. apply (acc_iff _ _ _ _ _ (iff_sym (vd_key k ws v Hk))). destruct o as [a|].
  - apply acc_ret. left. apply Ho. discriminate.
  - apply acc_l; [|intros; apply acc_ret; exact I]. apply (acc_iff _ _ (md <> StrictErrorMode)); [|apply acc_handle]. split; [auto|]. intros [H|H]; [|exact H]. apply Ho in H. congruence.
Qed.
Ltac wordy := split; [intros H; repeat match type of H with context [if String.eqb ?v ?s then _ else _] => destruct (String.eqb_spec v s) as [->|]; [cbn; tauto|] end; congruence
                     |intros H; cbn in H; repeat (destruct H as [<-|H]; [discriminate|]); destruct H].
Lemma acc_styleAttr f st k v : all_chars is_ascii v = true -> acc f f (valid_decl E md k v) (readStyleAttr (E := E) st k v).
Proof.
  intros Ha. unfold readStyleAttr.
  destruct (String.eqb_spec k "fill") as [->|N1]. { apply (acc_iff _ _ _ _ _ (iff_sym (vd_paint "fill" v (or_introl eq_refl)))). apply (acc_paint f v _ st (fun p => s_set_filler p) (fun g => s_set_filler (Some (PGrad g)) st) Ha). }
  destruct (String.eqb_spec k "fill-rule") as [->|N2].
  { pose proof (acc_word f "fill-rule" ["evenodd"; "nonzero"]%string v (if String.eqb v "evenodd" then Some false else if String.eqb v "nonzero" then Some true else None) (fun b => s_set_nonZero b st) st (unsupported v "fill-rule")) as W.
    specialize (W (or_introl eq_refl)). assert (W' := fun H => W H). clear W. revert W'. destruct (String.eqb_spec v "evenodd") as [->|]; [|destruct (String.eqb_spec v "nonzero") as [->|]]; intros W; apply W; cbn; (split; [intros; first [tauto|congruence]|intros; first [discriminate|intuition congruence]]). }
  destruct (String.eqb_spec k "stroke") as [->|N3]. { apply (acc_iff _ _ _ _ _ (iff_sym (vd_paint "stroke" v (or_intror eq_refl)))). apply (acc_paint f v _ st (fun p => s_set_liner p) (fun g => s_set_liner (Some (PGrad g)) st) Ha). }
  destruct (String.eqb_spec k "stroke-linegap") as [->|N4]. { apply (acc_word f _ (words gap_words) v (gapOf v)); [cbn; tauto|]. unfold gapOf. wordy. }
  destruct (String.eqb_spec k "stroke-leadlinecap") as [->|N5]. { apply (acc_word f _ (words cap_words) v (capOf v)); [cbn; tauto|]. unfold capOf. wordy. }
  destruct (String.eqb_spec k "stroke-linecap") as [->|N6]. { apply (acc_word f _ (words cap_words) v (capOf v)); [cbn; tauto|]. unfold capOf. wordy. }
  destruct (String.eqb_spec k "stroke-linejoin") as [->|N7]. { apply (acc_word f _ (words join_words) v (joinOf v)); [cbn; tauto|]. unfold joinOf. wordy. }
  destruct (String.eqb_spec k "stroke-miterlimit") as [->|N8]. { apply (acc_iff _ _ _ _ _ (iff_sym (vd_num "stroke-miterlimit" v ltac:(cbn; tauto)))). apply acc_l; [apply acc_float, Ha|]. intros. apply acc_ret. exact I. }
  destruct (String.eqb_spec k "stroke-width") as [->|N9]. { apply (acc_iff _ _ _ _ _ (iff_sym (vd_num "stroke-width" v ltac:(cbn; tauto)))). apply acc_l; [apply acc_unit, Ha|]. intros. apply acc_ret. exact I. }
  destruct (String.eqb_spec k "stroke-dashoffset") as [->|N10]. { apply (acc_iff _ _ _ _ _ (iff_sym (vd_num "stroke-dashoffset" v ltac:(cbn; tauto)))). apply acc_l; [apply acc_unit, Ha|]. intros. apply acc_ret. exact I. }
  destruct (String.eqb_spec k "stroke-dasharray") as [->|N11].
  { apply (acc_iff _ _ _ _ _ (iff_sym (vd_dash v))). destruct (String.eqb_spec v "none") as [->|Hv]; cbn [negb]; [apply acc_ret; left; reflexivity|].
    apply (acc_iff _ _ (Forall (valid_length E) (splitOnCommaOrSpace v))).
    - rewrite Forall_forall. unfold valid_dashes, splitOnCommaOrSpace. split; [intros H; right; intros w Hw; apply H, fields_iff, Hw|]. intros [H|H] w Hw; [contradiction|]. apply H, fields_iff, Hw.
    - apply acc_l; [|intros; apply acc_ret; exact I]. apply acc_dashes. apply Forall_forall. intros w Hw. apply fields_iff in Hw as (a & b & -> & _). apply chars_app in Ha as [_ Ha]. apply chars_app in Ha. apply Ha. }
  destruct (String.eqb k "opacity" || String.eqb k "stroke-opacity" || String.eqb k "fill-opacity") eqn:Ho.
  { assert (Hk : List.In k number_names) by (apply orb_prop in Ho as [Ho|Ho]; [apply orb_prop in Ho as [Ho|Ho]|]; apply String.eqb_eq in Ho; subst k; cbn; tauto).
    apply (acc_iff _ _ _ _ _ (iff_sym (vd_num k v Hk))). apply acc_l; [apply acc_float, Ha|]. intros. apply acc_ret. exact I. }
  apply orb_false_elim in Ho as [Ho O3]. apply orb_false_elim in Ho as [O1 O2]. apply String.eqb_neq in O1, O2, O3.
  destruct (String.eqb_spec k "transform") as [->|N12]. { apply (acc_iff _ _ _ _ _ (iff_sym (vd_trans v))). apply acc_l; [apply acc_transform, Ha|]. intros. apply acc_ret. exact I. }
  destruct (String.eqb_spec k "mask") as [->|N13].
  { apply (acc_iff _ _ _ _ _ (iff_sym (vd_sel v))). apply acc_l; [apply acc_lift, selector_iff|]. intros. apply acc_l; [apply acc_append|]. intros. apply acc_ret. exact I. }
  apply acc_ret. constructor; intros; try contradiction.
  - match goal with H : List.In k number_names |- _ => cbn in H; intuition congruence end.
  - match goal with H : k = _ \/ k = _ |- _ => destruct H; contradiction end.
  - match goal with H : List.In _ keywords |- _ => cbn in H; intuition congruence end.
Qed.
End Accept.

(** * ProofsTrans: which texts are transforms *)
From Coq Require Import ZArith ZifyN Lia.
From Verif Require Import SpecTrans ProofsNum ProofsMistake ProofsMistake2 ProofsMistake3 ProofsRunes ProofsStyle ProofsColor ProofsUnit ProofsTok ProofsPath ProofsPath2.
Local Open Scope list_scope.

Lemma parts_split s : parts_of s = split1 ")" s.
Proof.
  unfold parts_of. induction s as [|c s IH]; [reflexivity|]. cbn [closing_parts split1]. destruct (closing_parts s) as [p ps]. rewrite <- IH. destruct (Ascii.eqb c ")"); reflexivity.
Qed.
Lemma ascii_small c : is_ascii c = true -> (N_of_ascii c < 128)%N.
Proof. unfold is_ascii, code. apply N.ltb_lt. Qed.
Lemma utf8_ascii s : all_chars is_ascii s = true -> utf8 (ascii_chars s) = s.
Proof.
  unfold ascii_chars. induction s as [|c s IH]; intros H; [reflexivity|]. cbn [all_chars] in H. apply andb_prop in H as [Hc Hs].
  cbn [list_ascii_of_string map utf8]. rewrite (IH Hs). unfold encode. rewrite (proj2 (N.ltb_lt _ _) (ascii_small c Hc)). rewrite ascii_N_embedding. reflexivity.
Qed.
Lemma plain_ascii (E : Env) s : all_chars is_ascii s = true -> plain_text E (ascii_chars s).
Proof.
  unfold ascii_chars, plain_text. induction s as [|c s IH]; intros H; cbn [list_ascii_of_string map]; [constructor|]. cbn [all_chars] in H. apply andb_prop in H as [Hc Hs].
  apply ascii_small in Hc. constructor; [|exact (IH Hs)]. split; [unfold scalar; lia|]. unfold isNumber, decimal_digit. rewrite (proj2 (N.ltb_lt _ _) Hc). reflexivity.
Qed.
Lemma split_parts d s : Forall (fun p => no_char d p = true) (split1 d s).
Proof.
  induction s as [|c s IH]; [constructor; [reflexivity|constructor]|]. cbn [split1]. destruct (Ascii.eqb c d) eqn:Hc; [constructor; [reflexivity|exact IH]|].
  destruct (split1 d s) as [|p ps]; [constructor; [|constructor]; unfold no_char; cbn [all_chars]; rewrite Hc; reflexivity|].
  inversion IH as [|? ? I1 I2]; subst. constructor; [|exact I2]. unfold no_char in *. cbn [all_chars]. rewrite Hc. exact I1.
Qed.
Lemma split_ascii d s : all_chars is_ascii s = true -> Forall (fun p => all_chars is_ascii p = true) (split1 d s).
Proof.
  induction s as [|c s IH]; intros H; [constructor; [reflexivity|constructor]|]. cbn [all_chars] in H. apply andb_prop in H as [Hc Hs]. specialize (IH Hs). cbn [split1].
  destruct (Ascii.eqb c d); [constructor; [reflexivity|exact IH]|]. 
  destruct (split1 d s) as [|p ps]; [constructor; [|constructor]; cbn [all_chars]; rewrite Hc; reflexivity|].
  inversion IH as [|? ? I1 I2]; subst. constructor; [|exact I2]. cbn [all_chars]. rewrite Hc. exact I1.
Qed.

Section Trans.
Context {E : Env}.
Notation cursor := (cursor E).
Notation matrix := (matrix E).
Lemma ascii_words s : all_chars is_ascii s = true -> numPieces (E := E) s = number_words (ascii_chars s).
Proof. intros H. rewrite <- (utf8_ascii s H) at 1. apply numPieces_words, plain_ascii, H. Qed.
Lemma numbers_of s vs : all_chars is_ascii s = true -> Forall2 (fun w v => word_value E w = Some v) (number_words (ascii_chars s)) vs -> numbers (E := E) s = (vs, Ret tt).
Proof. intros H Hv. unfold numbers. rewrite (ascii_words s H). exact (pushes_words _ vs (words_numchar _) Hv). Qed.
Lemma pushes_cases l : Forall (fun w => all_chars numchar w = true) l ->
  (exists vs, Forall2 (fun w v => word_value E w = Some v) l vs /\ pushes (E := E) l = (vs, Ret tt)) \/ exists vs e, pushes (E := E) l = (vs, Err e).
Proof.
  induction 1 as [|w l Hw _ IH]; [left; exists []; split; [constructor|reflexivity]|]. cbn [pushes]. rewrite (parse_word w Hw). destruct (word_value E w) as [v|] eqn:Hv; [|right; eauto].
  destruct IH as [(vs & H1 & H2)|(vs & e & H2)]; rewrite H2; [left; exists (v :: vs); split; [constructor; assumption|reflexivity]|right; eauto].
Qed.
Lemma numbers_cases s : all_chars is_ascii s = true ->
  (exists vs, Forall2 (fun w v => word_value E w = Some v) (number_words (ascii_chars s)) vs /\ numbers (E := E) s = (vs, Ret tt)) \/ exists vs e, numbers (E := E) s = (vs, Err e).
Proof. intros H. unfold numbers. rewrite (ascii_words s H). apply pushes_cases, words_numchar. Qed.
Lemma takes_reads m name vs f : function_takes E name vs f -> readTransformAttr m name vs = Ret (tfun_apply E m f).
Proof. intros [H|(x & -> & -> & ->)]; [apply attr_reads, H|reflexivity]. Qed.
Lemma takes_ne name vs f : function_takes E name vs f -> vs <> [].
Proof. intros [H|(x & _ & -> & _)]; [eapply tfun_ne; exact H|discriminate]. Qed.
Lemma takes_word name vs f : function_takes E (low_case name) vs f -> all_chars plain name = true
  /\ no_char "(" name = true /\ no_char ")" name = true /\ all_chars is_ascii name = true /\ name <> EmptyString.
Proof.
  intros [H|(x & H1 & _ & _)]; [eapply name_word; exact H|]. apply (name_word name [x; x] (Translate E x x)). split; [exact H1|reflexivity].
Qed.
Lemma reads_takes m name vs m' : readTransformAttr m name vs = Ret m' -> exists f, function_takes E name vs f.
Proof.
  unfold readTransformAttr. 
  destruct (String.eqb_spec name "rotate") as [->|_].
  { destruct vs as [|a [|x [|y [|? ?]]]]; try discriminate; intros _; [exists (Rotate E a)|exists (RotateAt E a x y)]; left; split; reflexivity. }
  destruct (String.eqb_spec name "translate") as [->|_].
  { destruct vs as [|x [|y [|? ?]]]; try discriminate; intros _; [exists (Translate E x x); right; eauto|exists (Translate E x y); left; split; reflexivity]. }
  destruct (String.eqb_spec name "skewx") as [->|_].
  { destruct vs as [|a [|? ?]]; try discriminate; intros _. exists (SkewX E a); left; split; reflexivity. }
  destruct (String.eqb_spec name "skewy") as [->|_].
  { destruct vs as [|a [|? ?]]; try discriminate; intros _. exists (SkewY E a); left; split; reflexivity. }
  destruct (String.eqb_spec name "scale") as [->|_].
  { destruct vs as [|x [|y [|? ?]]]; try discriminate; intros _; [exists (Scale E x x); left; split; [reflexivity|right; split; reflexivity]|exists (Scale E x y); left; split; [reflexivity|left; reflexivity]]. }
  destruct (String.eqb_spec name "matrix") as [->|_].
  { destruct vs as [|a [|b [|c [|d [|e [|f [|? ?]]]]]]]; try discriminate; intros _. exists (MatrixFn E (mkM a b c d e f)); left; split; reflexivity. }
  discriminate.
Qed.
Lemma reads_cases m name vs : (exists m', readTransformAttr (E := E) m name vs = Ret m') \/ readTransformAttr (E := E) m name vs = Err ErrParamMismatch.
Proof.
  unfold readTransformAttr. 
  repeat match goal with |- context [if ?b then _ else _] => destruct b end;
  repeat match goal with |- context [match ?l with [] => _ | _ => _ end] => destruct l end; eauto.
Qed.
(** a part that reads as functions *)
Lemma step_reads (m : matrix) t fs (c : cursor) : all_chars is_ascii t = true -> part_reads E t fs ->
  exists vs, transformStep m t c = (match fs with [] => c | _ => c_set_pc (set_points vs (c_pc c)) c end, Ret (fold_left (tfun_apply E) fs m)).
Proof.
  intros HA Hp. destruct Hp as [s Hs|l name b args vs f Hl Hb Hno Hv Hf].
  - exists []. unfold transformStep. replace (trimSpace s) with ""%string; [reflexivity|]. rewrite <- (sapp_nil_r s). rewrite <- (trimSpace_pad s "" "" Hs eq_refl eq_refl) at 1. cbn [append]. rewrite ?sapp_nil_r. reflexivity.
  - exists vs. pose proof (takes_ne _ _ _ Hf) as Hvs. destruct (takes_word _ _ _ Hf) as (Np & No & Nc & Nas & Nne).
    assert (HAa : all_chars is_ascii args = true) by (rewrite !all_chars_app in HA; repeat match goal with H : _ && _ = true |- _ => apply andb_prop in H as [? H] end; assumption).
    pose proof (numbers_of args vs HAa Hv) as HN. destruct (trail_split _ HAa) as (a & t & -> & Ht & Ha). 
    rewrite numbers_trail in HN by assumption. destruct Ha as [->|(k & q & Hk & Hp)]; [injection HN as HN; congruence|].
    change (no_char "(" (a ++ t) = true) in Hno. rewrite no_char_app in Hno. apply andb_prop in Hno as [HO _].
    unfold transformStep.
    replace (l ++ name ++ b ++ "(" ++ a ++ t)%string with (l ++ (name ++ b ++ "(" ++ a) ++ t)%string by (rewrite !sapp_assoc; cbn; rewrite ?sapp_assoc; reflexivity).
    assert (Hsol : solid (name ++ b ++ "(" ++ a) = true).
    { apply solid_app; auto.
      - apply front_chars. exact Np.
      - destruct (last_app "(" _ _ _ Hk) as (q1 & H1). destruct (last_app b _ _ _ H1) as (q2 & H2). rewrite H2. exact Hp.
      - destruct b; discriminate. }
    rewrite trimSpace_pad by assumption.
    assert (Hlen : (String.length (name ++ b ++ "(" ++ a) =? 0) = false) by (destruct name; [congruence|reflexivity]).
    cbv zeta. rewrite Hlen.
    assert (Hs : split1 "(" (name ++ b ++ "(" ++ a) = [(name ++ b)%string; a]).
    { replace (name ++ b ++ "(" ++ a)%string with ((name ++ b) ++ String "(" a)%string by (rewrite !sapp_assoc; reflexivity).
      rewrite split1_cons, split1_none; [reflexivity|exact HO|]. rewrite no_char_app, No, (blank_no "(" b); auto. }
    rewrite Hs.
    assert (Hla : (String.length a <? 1) = false) by (destruct a; [discriminate Hk|reflexivity]).
    rewrite Hla.
    erewrite bind_step. 2:{ unfold liftP. rewrite getPoints_numbers, HN. reflexivity. }
    erewrite bind_step by (unfold gets; reflexivity). cbn [fst snd c_pc c_set_pc set_points pc_points fold_left].
    rewrite trimSpace_end by (auto; apply solid_chars; exact Np).
    rewrite toLower_low by exact Nas. unfold lift. rewrite (takes_reads _ _ _ _ Hf). reflexivity.
Qed.
(** any other part is an error *)
Lemma step_cases (m : matrix) t (c : cursor) : all_chars is_ascii t = true ->
  (exists fs, part_reads E t fs) \/ exists c' e, transformStep m t c = (c', Err e).
Proof.
  intros HA. destruct (trim_split t HA) as (l & r & Ht & Bl & Br). unfold transformStep. cbv zeta. set (u := trimSpace t) in *.
  destruct (String.length u =? 0) eqn:Hu.
  { left. exists []. apply pr_blank. destruct u; [|discriminate Hu]. rewrite Ht. cbn [append]. unfold blank in *. rewrite all_chars_app, Bl, Br. reflexivity. }
  assert (HAu : all_chars is_ascii u = true) by (rewrite Ht, !all_chars_app in HA; apply andb_prop in HA as [_ HA]; apply andb_prop in HA; tauto).
  pose proof (split_parts "(" u) as P1. pose proof (split_ascii "(" u HAu) as P2.
  destruct (split1 "(" u) as [|d0 [|d1 [|? ?]]] eqn:Hs; try (right; do 2 eexists; reflexivity).
  pose proof (split1_join _ _ _ Hs) as Hj. cbn in Hj. pose proof (Forall_inv (Forall_inv_tail P1)) as N1. pose proof (Forall_inv P2) as A0. pose proof (Forall_inv (Forall_inv_tail P2)) as A1. cbv beta in N1, A0, A1.
  destruct (String.length d1 <? 1) eqn:H1; [right; do 2 eexists; reflexivity|].
  assert (HA1 : all_chars is_ascii (d1 ++ r) = true).
  { rewrite all_chars_app, A1. cbn [andb]. rewrite Ht, !all_chars_app in HA. apply andb_prop in HA as [_ HA]. apply andb_prop in HA as [_ HA]. exact HA. }
  destruct (numbers_cases (d1 ++ r) HA1) as [(vs & Hv & HN)|(vs & e & HN)].
  - rewrite numbers_trail in HN by assumption. destruct (trim_split d0 A0) as (l' & r' & Hd & Bl' & Br').
    assert (A0' : all_chars is_ascii (trimSpace d0) = true) by (rewrite Hd, !all_chars_app in A0; apply andb_prop in A0 as [_ A0]; apply andb_prop in A0; tauto).
    destruct (reads_cases m (low_case (trimSpace d0)) vs) as [(m' & R)|R].
    + left. destruct (reads_takes _ _ _ _ R) as (f & Hf). exists [f].
      replace t with ((l ++ l') ++ trimSpace d0 ++ r' ++ "(" ++ (d1 ++ r))%string.
      * apply (pr_call E _ _ _ _ vs f); [unfold blank in *; rewrite all_chars_app, Bl, Bl'; reflexivity|exact Br'| |exact Hv|exact Hf].
        change (no_char "(" (d1 ++ r) = true). rewrite no_char_app, N1, (blank_no "(" r); auto.
      * rewrite Ht at 1. rewrite Hj. rewrite Hd at 2. rewrite !sapp_assoc. cbn [append]. reflexivity.
    + right. erewrite bind_step. 2:{ unfold liftP. rewrite getPoints_numbers, HN. reflexivity. }
      erewrite bind_step by (unfold gets; reflexivity). cbn [fst snd c_pc c_set_pc set_points pc_points]. rewrite toLower_low by exact A0'. unfold lift. rewrite R. eauto.
  - right. rewrite numbers_trail in HN by assumption. unfold bind at 1. unfold liftP. rewrite getPoints_numbers, HN. cbn [fst snd]. eauto.
Qed.
(** all parts, from the last to the first *)
Lemma fold_reads ts fss : Forall2 (part_reads E) ts fss -> Forall (fun t => all_chars is_ascii t = true) ts -> forall (m : matrix) (c : cursor),
  exists vs, foldM transformStep m (rev ts) c = (match List.concat fss with [] => c | _ => c_set_pc (set_points vs (c_pc c)) c end, Ret (fold_left (tfun_apply E) (rev (List.concat fss)) m)).
Proof.
  induction 1 as [|t fs ts fss Hp _ IH]; intros HA m c; [exists []; reflexivity|]. inversion HA as [|? ? A1 A2]; subst.
  cbn [rev List.concat]. rewrite foldM_app. destruct (IH A2 m c) as (vs & H1). rewrite (bind_step _ _ _ _ _ H1). cbn [foldM].
  set (c1 := match List.concat fss with [] => c | _ => _ end) in *. set (m1 := fold_left _ _ _) in *. destruct (step_reads m1 t fs c1 A1 Hp) as (vs2 & H2).
  rewrite (bind_step _ _ _ _ _ H2). rewrite rev_app_distr, fold_left_app. fold m1.
  assert (Hr : rev fs = fs) by (destruct Hp; reflexivity). rewrite Hr. unfold ret. subst c1.
  destruct Hp; cbn [app]; [exists vs; reflexivity|]. exists vs2. destruct (List.concat fss); reflexivity.
Qed.
Lemma fold_cases ts (m : matrix) (c : cursor) : Forall (fun t => all_chars is_ascii t = true) ts ->
  (exists fss, Forall2 (part_reads E) ts fss) \/ exists c' e, foldM transformStep m (rev ts) c = (c', Err e).
Proof.
  induction 1 as [|t ts A1 A2 IH]; [left; exists []; constructor|]. cbn [rev]. rewrite foldM_app. destruct IH as [(fss & IH)|(c' & e & IH)].
  - destruct (fold_reads ts fss IH A2 m c) as (vs & H1). rewrite (bind_step _ _ _ _ _ H1). cbn [foldM].
    match goal with |- _ \/ exists c' e, bind (transformStep ?m1 _) _ ?c1 = _ => destruct (step_cases m1 t c1 A1) as [(fs & H2)|(c2 & e & H2)] end.
    + left. exists (fs :: fss). constructor; assumption.
    + right. unfold bind. rewrite H2. eauto.
  - right. unfold bind. rewrite IH. eauto.
Qed.
Theorem transform_reads_all v fs (c : cursor) par rest : all_chars is_ascii v = true -> transform_reads_as E v fs -> c_stack c = par :: rest ->
  exists c', parseTransform v c = (c', Ret (fold_left (tfun_apply E) (rev fs) (st_transform par))) /\ same_but_points c c'.
Proof.
  intros HA (fss & Hf & ->) Hst. unfold parseTransform. erewrite bind_step by (unfold topStyle; rewrite Hst; reflexivity). rewrite parts_split in Hf.
  destruct (fold_reads _ _ Hf (split_ascii ")" v HA) (st_transform par) c) as (vs & H). rewrite H. eexists. split; [reflexivity|].
  destruct (List.concat fss); [apply sbp_refl|]. exists vs. reflexivity.
Qed.
Theorem transform_cases v (c : cursor) par rest : all_chars is_ascii v = true -> c_stack c = par :: rest ->
  (exists fs, transform_reads_as E v fs) \/ exists c' e, parseTransform v c = (c', Err e).
Proof.
  intros HA Hst. unfold parseTransform. destruct (fold_cases _ (st_transform par) c (split_ascii ")" v HA)) as [(fss & H)|(c' & e & H)].
  - left. exists (List.concat fss), fss. split; [rewrite parts_split; exact H|reflexivity].
  - right. erewrite bind_step by (unfold topStyle; rewrite Hst; reflexivity). eauto.
Qed.
Theorem transform_accepted v (c : cursor) par rest : all_chars is_ascii v = true -> c_stack c = par :: rest ->
  ((exists c' m, parseTransform v c = (c', Ret m)) <-> exists fs, transform_reads_as E v fs)
  /\ ((~ exists fs, transform_reads_as E v fs) -> exists c' e, parseTransform v c = (c', Err e)).
Proof.
  intros HA Hst. destruct (transform_cases v c par rest HA Hst) as [(fs & H)|(c' & e & H)].
  - split; [|intros K; exfalso; apply K; eauto]. split; [eauto|]. intros _. destruct (transform_reads_all v fs c par rest HA H Hst) as (c' & K & _). eauto.
  - split; [|eauto]. split; [intros (c1 & m & K); rewrite H in K; discriminate|]. intros (fs & K). destruct (transform_reads_all v fs c par rest HA K Hst) as (c1 & K1 & _). rewrite H in K1. discriminate.
Qed.
Theorem transform_fails fuel mode pre name attrs post tm a ds v : List.In a attrs -> attr_decls a ds -> List.In ("transform"%string, v) ds -> all_chars is_ascii v = true -> (~ exists fs, transform_reads_as E v fs) ->
  forall s log, parse (E := E) fuel mode (pre ++ TStart name attrs :: post) tm <> PSvg s None log.
Proof.
  intros Ha Hd Hi HA Hb. apply not_accepted. intros c _ c' H. cbn [stepToken] in H. apply bindC in H as (c1 & [] & H1 & _).
  revert H1. refine (fl_push _ a ds "transform" v attrs _ _ Ha Hd Hi _ c I c1 tt); intros; try apply kept_any.
  unfold readStyleAttr. cbn [String.eqb Ascii.eqb Bool.eqb orb]. apply fl_bind_l. intros c0 _ c2 m K.
  destruct (c_stack c0) as [|par rest] eqn:Hst; [unfold parseTransform, bind, topStyle in K; rewrite Hst in K; discriminate|].
  apply Hb. apply (transform_accepted v c0 par rest HA Hst). eauto.
Qed.

(** ** Commas between functions *)
Lemma first_char l l' c c' x y : blank l = true -> blank l' = true -> is_blank c = false -> is_blank c' = false -> (l ++ String c x = l' ++ String c' y)%string -> c = c'.
Proof.
  unfold blank. intros H H' Hc Hc'. revert l' H'. induction l as [|a l IH]; intros [|a' l'] H' K; cbn [append all_chars] in *.
  - congruence.
  - injection K as <- _. apply andb_prop in H' as [H' _]. congruence.
  - injection K as -> _. apply andb_prop in H as [H _]. congruence.
  - injection K as _ K. apply andb_prop in H as [_ H]. apply andb_prop in H' as [_ H']. exact (IH H l' H' K).
Qed.
Lemma comma_part l q fs : blank l = true -> ~ part_reads E (l ++ String "," q) fs.
Proof.
  intros Hl H. remember (l ++ String "," q)%string as t eqn:Ht. destruct H as [s Hs|l' name m args vs f Hl' Hm _ _ Hf].
  - subst s. unfold blank in Hs. rewrite all_chars_app in Hs. apply andb_prop in Hs as [_ Hs]. discriminate Hs.
  - destruct (takes_word _ _ _ Hf) as (Np & _ & _ & Nas & Nne). destruct name as [|c name]; [congruence|]. cbn [append] in Ht.
    cbn [all_chars] in Np, Nas. apply andb_prop in Np as [Np _]. apply andb_prop in Nas as [Nas _]. unfold plain in Np. rewrite Nas, (ascii_space _ Nas) in Np. apply negb_true_iff in Np.
    pose proof (first_char _ _ _ ","%char _ _ Hl' Hl Np eq_refl Ht) as ->.
    destruct Hf as [Hf|(x & Hf & _)]; [|discriminate Hf]. destruct f; destruct Hf as [Hf _]; discriminate Hf.
Qed.
Theorem comma_never before l q after : before = ""%string \/ ends_with (Ascii.eqb ")") before = true -> blank l = true -> all_chars (fun c => negb (Ascii.eqb c ")")) q = true ->
  forall fs, ~ transform_reads_as E (before ++ l ++ "," ++ q ++ ")" ++ after) fs.
Proof.
  intros Hb Hl Hq fs (fss & Hf & _). rewrite parts_split in Hf.
  assert (K : List.In (l ++ String "," q)%string (split1 ")" (before ++ (l ++ String "," q) ++ String ")" after))).
  { apply piece_in; [|eauto|exact Hb]. change (no_char ")" (l ++ String "," q) = true). rewrite no_char_app, (blank_no ")" l) by auto. exact Hq. }
  replace (before ++ l ++ "," ++ q ++ ")" ++ after)%string with (before ++ (l ++ String "," q) ++ String ")" after)%string in Hf by (rewrite !sapp_assoc; reflexivity).
  revert K. induction Hf as [|t f ts fss' Hp _ IH]; [intros []|]. intros [->|K]; [exact (comma_part l q f Hl Hp)|exact (IH K)].
Qed.
End Trans.

(** * ProofsData: which texts are path data *)
From Coq Require Import ZArith ZifyN Lia.
From Verif Require Import SpecData ProofsNum ProofsMistake2 ProofsMistake3 ProofsRunes ProofsLift2.
From Verif Require Import ProofsMode ProofsSpell ProofsStyle ProofsColor ProofsUnit ProofsTok ProofsPath ProofsPath2 ProofsPath3 ProofsPath4.
Local Open Scope N_scope.

Section Data.
Context {E : Env}.
Notation pcur := (pcur E).
Lemma data_scalar cs : plain_data E cs -> Forall scalar cs. Proof. intros H. eapply Forall_impl; [|exact H]. cbn. tauto. Qed.
Lemma data_text cs : plain_data E cs -> plain_text E cs. Proof. intros H. eapply Forall_impl; [|exact H]. cbn. tauto. Qed.
Lemma data_letter r : isLetter E r = (begins_command r || (r =? 101)) -> isLetter E r && negb (r =? 101) = begins_command r.
Proof. intros ->. unfold begins_command. destruct (r =? 101); rewrite ?andb_false_r, ?orb_false_r, ?andb_true_r; reflexivity. Qed.
(** ** The segments are the commands *)
Lemma sg_commands cs : plain_data E cs -> forall cur, sg (E := E) cur (enc cs)
  = ((match cur with Some s => [(s ++ utf8 (fst (commands_in cs)))%string] | None => [] end) ++ map (fun c => (encode (fst c) ++ utf8 (snd c))%string) (snd (commands_in cs)))%list.
Proof.
  induction 1 as [|r cs (_ & _ & Hl) _ IH]; intros cur; cbn [enc map sg commands_in].
  - cbn. destruct cur; [rewrite sapp_nil_r|]; reflexivity.
  - fold (enc cs). rewrite (data_letter r Hl). destruct (commands_in cs) as [a l]. cbn [fst snd] in IH. destruct (begins_command r).
    + cbn [fst snd map utf8]. rewrite IH. destruct cur; [rewrite sapp_nil_r|]; reflexivity.
    + cbn [fst snd utf8]. rewrite IH. destruct cur; [rewrite <- sapp_assoc|]; reflexivity.
Qed.
Lemma commands_plain cs : plain_data E cs -> plain_data E (fst (commands_in cs)) /\ Forall (fun c => begins_command (fst c) = true /\ plain_data E (snd c)) (snd (commands_in cs)).
Proof.
  induction 1 as [|r cs Hr _ IH]; cbn [commands_in]; [split; constructor|]. destruct (commands_in cs) as [a l]. cbn [fst snd] in IH. destruct IH as [H1 H2].
  destruct (begins_command r) eqn:Hb; cbn [fst snd]; split.
  - constructor.
  - constructor; [split; [exact Hb|exact H1]|exact H2].
  - constructor; [rewrite Hb; exact Hr|exact H1].
  - exact H2.
Qed.
Lemma segments_commands cs : plain_data E cs -> segments (E := E) (utf8 cs) = map (fun c => (encode (fst c) ++ utf8 (snd c))%string) (snd (commands_in cs)).
Proof. intros H. unfold segments. rewrite runes_utf8 by (apply data_scalar, H). apply sg_commands, H. Qed.
Lemma begins_letter k : begins_command k = true -> command_letter k.
Proof. unfold begins_command, command_letter. intros H. apply andb_prop in H as [H1 H2]. apply negb_true_iff, N.eqb_neq in H2. apply orb_prop in H1 as [H1|H1]; apply andb_prop in H1 as [A B]; apply N.leb_le in A, B; lia. Qed.
(** ** One command *)
Lemma addSeg_mode s (c c' : pcur) : addSeg s c = (c', Ret tt) -> pc_mode c' = pc_mode c.
Proof.
  intros H. pose proof (sp_addSeg (E := E) (pc_mode c) (pc_mode c) false true) as K.
  assert (Hm : (pc_mode c = StrictErrorMode /\ true = true) \/ (pc_mode c <> StrictErrorMode /\ pc_mode c <> StrictErrorMode /\ false = false) \/ (pc_mode c = pc_mode c /\ pc_mode c <> WarnErrorMode)).
  { destruct (pc_mode c); first [left; split; reflexivity|right; left; split; [discriminate|split; [discriminate|reflexivity]]]. }
  specialize (K Hm s c c). destruct K as [[_ K]|[_ K]].
  - split; [reflexivity|]. exists (pc_log c). split; [destruct c; reflexivity|discriminate].
  - rewrite H in K. exact (proj1 K).
  - rewrite H in K. destruct (K tt eq_refl).
Qed.

Lemma segSwitch_unknown k l : set_size k = None -> segSwitch (E := E) k l = segUnknown k.
Proof.
  intros Hk. unfold segSwitch, eqk.
  repeat match goal with |- context [Ascii.eqb k ?x] => let H := fresh in destruct (Ascii.eqb k x) eqn:H; [apply Ascii.eqb_eq in H; subst k; discriminate|] end. reflexivity.
Qed.
Local Open Scope nat_scope.
Lemma segSwitch_good k sz (c : pcur) : set_size k = Some sz -> good_count k (length (pc_points c)) = true -> exists c', segSwitch k (length (pc_points c)) c = (c', Ret tt).
Proof.
  intros Hk Hg.
  pose proof (set_size_known k sz Hk) as HK. cbn in HK. 
  assert (Hps : forall m, length (pc_points c) = m -> 0 < m -> pc_points c <> []) by (intros m Hm H0 Hx; rewrite Hx in Hm; cbn in Hm; lia).
  pose (z := (fnum E 0, fnum E 0) : point E).
  repeat (destruct HK as [HK|HK]; [subst k|]); try destruct HK; clear sz Hk.
  1,2: unfold good_count in Hg; cbn in Hg; apply Nat.eqb_eq in Hg;
       change (exists c', segZ c = (c', Ret tt)); unfold segZ, points, gets, bind; destruct (pc_points c); [|discriminate];
       destruct (pc_inPath c); eexists; reflexivity.
  1-4: destruct (count_sets "H" 0 _ eq_refl Hg) as (m & Hm & Hpos);
       assert (Hne : pc_points c <> []) by (eapply Hps; eauto; lia).
  1: change (exists c', segH false (length (pc_points c)) c = (c', Ret tt)); rewrite (segH_eq false _ (fst z)) by auto; eexists; reflexivity.
  1: change (exists c', segH true (length (pc_points c)) c = (c', Ret tt)); rewrite (segH_eq true _ (fst z)) by auto; eexists; reflexivity.
  1: change (exists c', segV false (length (pc_points c)) c = (c', Ret tt)); rewrite (segV_eq false _ (fst z)) by auto; eexists; reflexivity.
  1: change (exists c', segV true (length (pc_points c)) c = (c', Ret tt)); rewrite (segV_eq true _ (fst z)) by auto; eexists; reflexivity.
  1-6: destruct (count_sets "M" 1 _ eq_refl Hg) as (m & Hm & Hpos);
       destruct (sets1 m _ Hm) as (ps & Hp & Hl);
       assert (Hne : ps <> []) by (intros ->; cbn in Hl; lia).
  7-10: destruct (count_sets "Q" 3 _ eq_refl Hg) as (m & Hm & Hpos);
       destruct (sets2 m _ Hm) as (ps & Hp & Hl);
       assert (Hne : ps <> []) by (intros ->; cbn in Hl; lia).
  11-12: destruct (count_sets "C" 5 _ eq_refl Hg) as (m & Hm & Hpos);
       destruct (sets3 m _ Hm) as (ps & Hp & Hl);
       assert (Hne : ps <> []) by (intros ->; cbn in Hl; lia).
  1: { change (exists c', segM false (length (pc_points c)) c = (c', Ret tt)).
       destruct (abs1 false (place c) ps) eqn:Ha; [destruct ps; [congruence|destruct (abs1_ne _ _ _ _ Ha)]|].
       erewrite segM_eq by eauto. eexists; reflexivity. }
  1: { change (exists c', segM true (length (pc_points c)) c = (c', Ret tt)).
       destruct (abs1 true (place c) ps) eqn:Ha; [destruct ps; [congruence|destruct (abs1_ne _ _ _ _ Ha)]|].
       erewrite segM_eq by eauto. eexists; reflexivity. }
  1: change (exists c', segL false (length (pc_points c)) c = (c', Ret tt)); rewrite (segL_eq false ps _ _ z) by auto; eexists; reflexivity.
  1: change (exists c', segL true (length (pc_points c)) c = (c', Ret tt)); rewrite (segL_eq true ps _ _ z) by auto; eexists; reflexivity.
  1: change (exists c', segT "T" false (length (pc_points c)) c = (c', Ret tt)); erewrite (segT_eq "T" false ps) by auto; eexists; reflexivity.
  1: change (exists c', segT "t" true (length (pc_points c)) c = (c', Ret tt)); erewrite (segT_eq "t" true ps) by auto; eexists; reflexivity.
  1: change (exists c', segQ false (length (pc_points c)) c = (c', Ret tt)); rewrite (segQ_eq false ps _ _ (z, z)) by auto; eexists; reflexivity.
  1: change (exists c', segQ true (length (pc_points c)) c = (c', Ret tt)); rewrite (segQ_eq true ps _ _ (z, z)) by auto; eexists; reflexivity.
  1: change (exists c', segS "S" false (length (pc_points c)) c = (c', Ret tt)); erewrite (segS_eq "S" false ps) by auto; eexists; reflexivity.
  1: change (exists c', segS "s" true (length (pc_points c)) c = (c', Ret tt)); erewrite (segS_eq "s" true ps) by auto; eexists; reflexivity.
  1: change (exists c', segC false (length (pc_points c)) c = (c', Ret tt)); rewrite (segC_eq false ps _ _ (z, z, z)) by auto; eexists; reflexivity.
  1: change (exists c', segC true (length (pc_points c)) c = (c', Ret tt)); rewrite (segC_eq true ps _ _ (z, z, z)) by auto; eexists; reflexivity.
  1: change (exists c', segA false (length (pc_points c)) c = (c', Ret tt)); exact (segA_ok false c Hg).
  1: change (exists c', segA true (length (pc_points c)) c = (c', Ret tt)); exact (segA_ok true c Hg).
Qed.

Local Open Scope N_scope.
Definition words_ok (args : list N) : Prop := Forall (fun w => parseFloat E w <> None) (number_words args).
Lemma words_dec args : words_ok args \/ exists w, List.In w (number_words args) /\ parseFloat E w = None.
Proof.
  unfold words_ok. induction (number_words args) as [|w l IH]; [left; constructor|]. destruct (parseFloat E w) as [v|] eqn:Hw.
  - destruct IH as [IH|(w' & H1 & H2)]; [left; constructor; [congruence|exact IH]|right; exists w'; split; [right; exact H1|exact H2]].
  - right. exists w. split; [left; reflexivity|exact Hw].
Qed.
Lemma numbers_right args : plain_data E args -> words_ok args -> snd (numbers (E := E) (utf8 args)) = Ret tt /\ List.length (fst (numbers (E := E) (utf8 args))) = List.length (number_words args).
Proof.
  intros Hp Hw. assert (V : exists vs, Forall2 (fun w v => word_value E w = Some v) (number_words args) vs).
  { unfold words_ok in Hw. induction Hw as [|w l Hw _ (vs & IH)]; [exists []; constructor|]. unfold word_value. destruct (parseFloat E w) as [x|] eqn:Hx; [|congruence]. eexists (_ :: vs). constructor; [rewrite Hx; reflexivity|exact IH]. }
  destruct V as (vs & V). unfold numbers. rewrite (numPieces_words _ (data_text _ Hp)). rewrite (pushes_words _ vs (words_numchar args) V). cbn [fst snd]. split; [reflexivity|]. clear -V. induction V; cbn; congruence.
Qed.
(** what a command does: it is right, and compiled, or it is wrong, reported, and nothing is drawn *)
Lemma command_right k args (c : pcur) : begins_command k = true -> plain_data E args -> right_command E (pc_mode c) (k, args) ->
  exists c', addSeg (encode k ++ utf8 args) c = (c', Ret tt) /\ pc_mode c' = pc_mode c.
Proof.
  intros Hk Hp [Hw Hc]. cbn [fst snd] in Hw, Hc. destruct (numbers_right args Hp Hw) as [N1 N2].
  assert (K : exists c', addSeg (encode k ++ utf8 args) c = (c', Ret tt)).
  { rewrite (command_byte k (begins_letter k Hk)). cbn [append]. rewrite addSeg_eq, N1. set (c1 := set_points _ c).
    assert (S1 : exists c2, segSwitch (ascii_of_N k) (length (pc_points c1)) c1 = (c2, Ret tt)).
    { destruct (set_size (ascii_of_N k)) as [sz|] eqn:Hs.
      - apply (segSwitch_good _ sz); [exact Hs|]. unfold c1. cbn [pc_points set_points]. rewrite N2. exact Hc.
      - rewrite segSwitch_unknown by exact Hs. unfold segUnknown, bind, gets. replace (pc_mode c1) with (pc_mode c) by reflexivity. destruct (pc_mode c); try congruence; eexists; reflexivity. }
    destruct S1 as (c2 & S1). unfold bind. change (pc_points c1) with (fst (numbers (E := E) (utf8 args))) in S1. rewrite S1. eexists. reflexivity. }
  destruct K as (c' & K). exists c'. split; [exact K|]. exact (addSeg_mode _ _ _ K).
Qed.
Lemma command_wrong k args (c : pcur) : begins_command k = true -> plain_data E args -> ~ right_command E (pc_mode c) (k, args) ->
  exists c' e, addSeg (encode k ++ utf8 args) c = (c', Err e) /\ pc_path c' = pc_path c /\ pc_log c' = pc_log c.
Proof.
  intros Hk Hp Hn. rewrite (command_byte k (begins_letter k Hk)). cbn [append]. rewrite addSeg_eq.
  destruct (words_dec args) as [Hw|(w & H1 & H2)].
  - destruct (numbers_right args Hp Hw) as [N1 N2]. rewrite N1. set (c1 := set_points _ c). unfold bind.
    change (length (fst (numbers (E := E) (utf8 args)))) with (length (pc_points c1)).
    destruct (set_size (ascii_of_N k)) as [sz|] eqn:Hs.
    + rewrite (segSwitch_bad _ sz c1 Hs); [do 2 eexists; split; [reflexivity|split; reflexivity]|].
      change (pc_points c1) with (fst (numbers (E := E) (utf8 args))). rewrite N2. apply Bool.not_true_iff_false. intros Hg. apply Hn. split; [exact Hw|]. cbn [fst snd]. rewrite Hs. exact Hg.
    + rewrite segSwitch_unknown by exact Hs. unfold segUnknown, bind, gets. change (pc_mode c1) with (pc_mode c).
      destruct (pc_mode c) eqn:Hm; [exfalso; apply Hn; split; [exact Hw|cbn [fst snd]; rewrite Hs; discriminate]..|]. do 2 eexists. split; [reflexivity|split; reflexivity].
  - destruct (numbers_wrong (E := E) args) as (e & He); [split; [apply data_text, Hp|eauto]|]. rewrite He. do 2 eexists. split; [reflexivity|split; reflexivity].
Qed.
Lemma right_dec mode c : right_command E mode c \/ ~ right_command E mode c.
Proof.
  unfold right_command. destruct (words_dec (snd c)) as [H|(w & H1 & H2)].
  - destruct (set_size _); [destruct (good_count _ _)|destruct mode]; try (left; split; [exact H|]; (reflexivity || discriminate)); right; intros [_ K]; congruence.
  - right. intros [K _]. rewrite Forall_forall in K. exact (K w H1 H2).
Qed.
(** ** All commands *)
Notation seg_of := (fun c : N * list N => (encode (fst c) ++ utf8 (snd c))%string).
Lemma commands_right l : Forall (fun c => begins_command (fst c) = true /\ plain_data E (snd c)) l -> forall c : pcur, Forall (right_command E (pc_mode c)) l ->
  exists c', mapM addSeg (map seg_of l) c = (c', Ret tt) /\ pc_mode c' = pc_mode c.
Proof.
  induction 1 as [|[k a] l [Hk Ha] _ IH]; intros c Hr; cbn [map mapM]; [exists c; split; reflexivity|]. inversion Hr as [|? ? R1 R2]; subst.
  destruct (command_right k a c Hk Ha R1) as (c1 & H1 & M1). cbn [fst snd]. rewrite (bind_step _ _ _ _ _ H1). rewrite <- M1 in R2. destruct (IH c1 R2) as (c2 & H2 & M2). exists c2. split; [exact H2|congruence].
Qed.
Lemma commands_wrong l : Forall (fun c => begins_command (fst c) = true /\ plain_data E (snd c)) l -> forall c : pcur, ~ Forall (right_command E (pc_mode c)) l ->
  exists c' e, mapM addSeg (map seg_of l) c = (c', Err e).
Proof.
  induction 1 as [|[k a] l [Hk Ha] _ IH]; intros c Hr; cbn [map mapM]; [exfalso; apply Hr; constructor|]. cbn [fst snd].
  destruct (right_dec (pc_mode c) (k, a)) as [R|R].
  - destruct (command_right k a c Hk Ha R) as (c1 & H1 & M1). rewrite (bind_step _ _ _ _ _ H1). apply IH. rewrite M1. intros K. apply Hr. constructor; assumption.
  - destruct (command_wrong k a c Hk Ha R) as (c1 & e & H1 & _). unfold bind. rewrite H1. eauto.
Qed.
Theorem path_data cs (c : pcur) : plain_data E cs ->
  (right_data E (pc_mode c) cs /\ exists c', compilePath (utf8 cs) c = (c', Ret tt)) \/ (~ right_data E (pc_mode c) cs /\ exists c' e, compilePath (utf8 cs) c = (c', Err e)).
Proof.
  intros Hp. destruct (commands_plain cs Hp) as [_ Hc]. rewrite compilePath_segments, (segments_commands cs Hp). unfold right_data. unfold bind. change (pinit c) with (fst (pinit c), @Ret unit tt). cbv iota beta.
  replace (pc_mode c) with (pc_mode (fst (pinit c))) by reflexivity. set (c0 := fst (pinit c)).
  assert (D : Forall (right_command E (pc_mode c0)) (snd (commands_in cs)) \/ ~ Forall (right_command E (pc_mode c0)) (snd (commands_in cs))).
  { induction (snd (commands_in cs)) as [|x l IH]; [left; constructor|]. inversion Hc; subst. destruct (right_dec (pc_mode c0) x) as [R|R]; [|right; intros K; inversion K; contradiction].
    destruct IH as [IH|IH]; [assumption|left; constructor; assumption|right; intros K; inversion K; contradiction]. }
  destruct D as [D|D]; [left|right]; (split; [exact D|]).
  - destruct (commands_right _ Hc c0 D) as (c' & H & _). eauto.
  - exact (commands_wrong _ Hc c0 D).
Qed.
Theorem data_accepted cs (c : pcur) : plain_data E cs -> (snd (compilePath (utf8 cs) c) = Ret tt <-> right_data E (pc_mode c) cs) /\ (~ right_data E (pc_mode c) cs -> exists e, snd (compilePath (utf8 cs) c) = Err e).
Proof.
  intros Hp. destruct (path_data cs c Hp) as [[R (c' & H)]|[R (c' & e & H)]]; rewrite H; cbn [snd]; split; try split; intros; try assumption; try reflexivity; try contradiction; try discriminate; eauto.
Qed.

(** ** What they draw *)
Section Refine.
Context (fadd_comm : forall a b, fadd E a b = fadd E b a).
Context (off : point E).
Lemma addSeg_says k args kc s (c : pcur) : begins_command k = true -> plain_data E args -> says E (k, args) kc -> sim off s c -> (kc = ClosePath -> pc_inPath c = true) ->
  exists c', addSeg (encode k ++ utf8 args) c = (c', Ret tt)
    /\ sim off (fst (exec E off s kc)) c'
    /\ pc_path c' = (pc_path c ++ snd (exec E off s kc))%list
    /\ pc_inPath c' = opens kc (pc_inPath c)
    /\ pc_log c' = pc_log c.
Proof.
  intros Hk Hp [Hkey Hv] Hs Hcl. cbn [fst snd] in Hkey, Hv. rewrite (command_byte k (begins_letter k Hk)). cbn [append]. set (key := ascii_of_N k) in *.
  assert (HN : numbers (E := E) (utf8 args) = (SpecPath.args E kc, Ret tt)) by (unfold numbers; rewrite (numPieces_words _ (data_text _ Hp)); exact (pushes_words _ _ (words_numchar args) Hv)).
  rewrite addSeg_eq, HN. cbn [fst snd].
  assert (Hsw : segSwitch key (length (SpecPath.args E kc)) (set_points (SpecPath.args E kc) c)
              = segSwitch (letter E kc) (length (SpecPath.args E kc)) (set_points (SpecPath.args E kc) c)).
  { destruct Hkey as [->|[-> ->]]; reflexivity. }
  destruct (good_cmd fadd_comm off kc s (set_points (SpecPath.args E kc) c)) as (c' & H1 & H2 & H3 & H4 & H5 & H6); auto.
  { apply sim_setpoints; assumption. }
  unfold bind. rewrite Hsw, H1. unfold modify. eexists; split; [reflexivity|].
  repeat split; auto; try apply H2.
  destruct Hkey as [->|[-> ->]]; [apply H2|]. cbn. cbn [exec fst] in H2. repeat split.
Qed.
Lemma commands_say l ks : Forall2 (says E) l ks -> Forall (fun c => begins_command (fst c) = true /\ plain_data E (snd c)) l -> forall s (c : pcur), sim off s c ->
  closes_open E (pc_inPath c) ks = true ->
  exists c', mapM addSeg (map seg_of l) c = (c', Ret tt)
    /\ sim off (fst (run E off s ks)) c'
    /\ pc_path c' = (pc_path c ++ snd (run E off s ks))%list
    /\ pc_log c' = pc_log c.
Proof.
  induction 1 as [|[k a] kc l ks Hseg _ IH]; intros HF s c Hs Hcl.
  - exists c. cbn. rewrite app_nil_r. auto.
  - inversion HF as [|? ? [Hk Ha] HF2]; subst. destruct (addSeg_says k a kc s c Hk Ha Hseg Hs) as (c1 & H1 & H2 & H3 & H4 & H6).
    { intros ->. cbn in Hcl. apply andb_prop in Hcl. tauto. }
    destruct (IH HF2 (fst (exec E off s kc)) c1 H2) as (c2 & I1 & I2 & I3 & I6).
    { rewrite H4. destruct kc; cbn in Hcl |- *; auto. apply andb_prop in Hcl. tauto. }
    exists c2. cbn [map mapM]. unfold bind. cbn [fst snd]. rewrite H1, I1.
    unfold run in *. cbn [many]. destruct (exec E off s kc) as [s1 o1]. cbn [fst snd] in *.
    destruct (many E (exec E off) s1 ks) as [s2 o2]. cbn [fst snd] in *.
    repeat split; auto; try apply I2; try congruence.
    rewrite I3, H3, app_assoc. reflexivity.
Qed.
End Refine.
Theorem data_draws (fadd_comm : forall a b, fadd E a b = fadd E b a) cs ks (c : pcur) : plain_data E cs -> reads E cs ks -> closes_open E false ks = true ->
  exists c', compilePath (utf8 cs) c = (c', Ret tt) /\ pc_path c' = draws E (pc_curX c, pc_curY c) ks /\ pc_log c' = pc_log c.
Proof.
  intros Hp Hr Hcl. destruct (commands_plain cs Hp) as [_ Hc]. rewrite compilePath_segments, (segments_commands cs Hp). unfold bind. change (pinit c) with (fst (pinit c), @Ret unit tt). cbv iota beta.
  destruct (commands_say fadd_comm (offc c) _ ks Hr Hc (pen0 E) (fst (pinit c)) (sim_init (offc c) c eq_refl) Hcl) as (c' & H1 & H2 & H3 & H5).
  exists c'. split; [exact H1|]. split; [exact H3|exact H5].
Qed.
(** ** Documents *)
Lemma right_weaken md md' cs : md' <> StrictErrorMode -> right_data E md cs -> right_data E md' cs.
Proof.
  intros Hm H. eapply Forall_impl; [|exact H]. intros c [H1 H2]. split; [exact H1|]. destruct (set_size _); [exact H2|exact Hm].
Qed.
Lemma start_mode fuel mode pre name attrs post tm : flat_defs pre -> is_definition pre name = false -> List.In name svg_names ->
  (forall df c, drawFuncs (E := E) fuel name = Some df -> (mode = StrictErrorMode -> strict c) -> forall c', df attrs c <> (c', Ret tt)) ->
  forall s log, parse (E := E) fuel mode (pre ++ TStart name attrs :: post) tm <> PSvg s None log.
Proof.
  intros Hf Hd Hk Hx. apply not_accepted. intros c Hc c' H. pose proof (where_reached fuel mode pre Hf c Hc) as W. cbn [stepToken] in H.
  apply bindC in H as (c1 & [] & H1 & H2). pose proof (where_push pre attrs c c1 W H1) as W1. rewrite start_cases, (ProofsMistake3.w_defs _ _ W1), (ProofsMistake3.w_grad _ _ W1) in H2.
  replace (String.eqb name "radialGradient" || String.eqb name "linearGradient" || open_gradient pre) with (gradient_name name || open_gradient pre) in H2
    by (unfold gradient_name; f_equal; apply orb_comm).
  rewrite negb_orb, andb_assoc in H2. fold (is_definition pre name) in H2. rewrite Hd in H2. destruct (drawFuncs fuel name) as [df|] eqn:Hdf.
  - apply bindC in H2 as (c2 & err & K1 & H2). apply bindC in H2 as (c3 & [] & K2 & H3). destruct err; [discriminate|].
    unfold attempt in K1. destruct (df attrs c1) as [c4 [[]|e| |]] eqn:Hr; try discriminate K1. refine (Hx df c1 eq_refl _ c4 Hr).
    intros ->. eapply (kept_strict (pushStyle attrs)); [apply sc_pushStyle; left; auto| |exact H1]. eapply strict_reached; exact Hc.
  - apply known_name in Hdf. contradiction.
Qed.
Theorem wrong_data_fails fuel mode pre attrs post tm cs : flat_defs pre -> is_definition pre "path" = false ->
  List.In (mkAttr "d" (utf8 cs)) attrs -> plain_data E cs -> ~ right_data E mode cs ->
  forall s log, parse (E := E) fuel mode (pre ++ TStart "path" attrs :: post) tm <> PSvg s None log.
Proof.
  intros Hf Hd Hi Hp Hn. apply start_mode; [exact Hf|exact Hd|cbn; tauto|]. intros df c Hdf Hs c' H. injection Hdf as <-.
  pose (I := fun c : cursor E => mode = StrictErrorMode -> strict c). revert H. change (I c) in Hs. revert c Hs c'.
  assert (K : fails I (pathF (E := E) attrs)); [|intros c Hs c'; apply (K c Hs c' tt)].
  unfold pathF. eapply fl_mapM; [| |exact Hi].
  - intros a c Hc c' x H Hm. apply (kept_strict (if is a "d" then liftP (compilePath (a_val a)) else ret tt)) with c x; [|exact (Hc Hm)|exact H].
    apply sim_if; [apply sc_liftP, sp_compilePath; left; auto|apply sim_ret].
  - intros c Hc c' [] H. unfold is, liftP in H. cbn [a_name a_val String.eqb Ascii.eqb Bool.eqb] in H.
    destruct (path_data cs (c_pc c) Hp) as [[R _]|[_ (c1 & e & K)]]; [|rewrite K in H; discriminate].
    apply Hn. destruct mode; [eapply right_weaken; [|exact R]; discriminate..|]. rewrite <- (Hc eq_refl). exact R.
Qed.
Theorem right_data_alone mode m vb off attrs cs : attr_once "d" attrs (utf8 cs) -> plain_data E cs ->
  (right_data E mode cs <-> exists p, alone E mode m vb off "path" attrs p).
Proof.
  intros Ha Hp. assert (Hm : pc_mode (c_pc (start_at E mode vb off)) = mode) by reflexivity.
  destruct (path_data cs (c_pc (start_at E mode vb off)) Hp) as [[R (c' & H)]|[R (c' & e & H)]]; rewrite Hm in R; split; intros K.
  - exists (pc_path c'). split; [cbn; tauto|]. split; [intros [X|X]; discriminate|]. exists (pathF (E := E)), (c_set_pc c' (start_at E mode vb off)). split; [reflexivity|]. split; [|reflexivity]. exact (path_once attrs _ c' _ Ha H).
  - exact R.
  - contradiction.
  - exfalso. destruct K as (p & _ & _ & df & c1 & H1 & H2 & _). injection H1 as <-.
    destruct Ha as (l & r & -> & Hl & Hr). unfold pathF in H2. rewrite ProofsShape.mapM_app' in H2. erewrite bind_step in H2 by exact (ProofsShape.path_none l _ Hl). cbn [mapM] in H2.
    unfold bind at 1 in H2. unfold is at 1, liftP at 1 in H2. cbn [a_name a_val String.eqb Ascii.eqb Bool.eqb] in H2. rewrite H in H2. discriminate.
Qed.
Theorem data_figure (fadd_comm : forall a b, fadd E a b = fadd E b a) mode m vb off attrs cs ks p : attr_once "d" attrs (utf8 cs) -> plain_data E cs -> reads E cs ks -> closes_open E false ks = true ->
  alone E mode m vb off "path" attrs p -> p = draws E off ks.
Proof.
  intros Ha Hp Hr Hc Hal. destruct (data_draws fadd_comm cs ks (c_pc (start_at E mode vb off)) Hp Hr Hc) as (c' & H1 & H2 & _).
  rewrite (path_alone _ _ _ _ _ _ _ _ Hal Ha H1), H2. destruct off. reflexivity.
Qed.
End Data.

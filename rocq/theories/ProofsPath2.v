(** * ProofsPath2: whole path data: refinement, errors, no panic, no history *)
From Coq Require Import Lia.
From Verif Require Export ProofsPath.
Local Open Scope go_scope.

Section P2.
Context {E : Env}.
Notation F := (F E).
Notation pcur := (pcur E).
Notation P := (@P E).
Notation point := (point E).
Notation pen := (pen E).
Notation cmd := (cmd E).
Notation sg := (sg (E := E)).

(** ** splitting at letters *)
Definition inSeg (c : ascii) : bool := negb (isLetter E (code c) && negb (code c =? 101)%N).

Lemma sg_in s : all_chars inSeg s = true -> forall cur l,
  sg cur (ascii_runes s ++ l) = sg (match cur with Some t => Some (t ++ s)%string | None => None end) l.
Proof.
  induction s as [|c s IH]; intros H cur l; cbn [ascii_runes app].
  - destruct cur; [rewrite sapp_nil_r|]; reflexivity.
  - cbn [all_chars] in H. apply andb_prop in H as [Hc Hs]. cbn [ProofsTok.sg].
    unfold inSeg in Hc. apply negb_true_iff in Hc. rewrite Hc.
    rewrite IH by assumption. destruct cur; [|reflexivity].
    rewrite sapp_assoc. reflexivity.
Qed.
Lemma sg_letter c cur l : isLetter E (code c) && negb (code c =? 101)%N = true ->
  sg cur ((code c, String c EmptyString) :: l) =
  (match cur with Some s => [s] | None => [] end) ++ sg (Some (String c EmptyString)) l.
Proof. intros H. cbn [ProofsTok.sg]. rewrite H. reflexivity. Qed.

Lemma inSeg_sep c : is_sep c = true -> inSeg c = true.
Proof.
  intros H. apply sep_code in H. unfold inSeg, isLetter. cbn in H.
  repeat (destruct H as [H|H]; [rewrite <- H; reflexivity|]). destruct H.
Qed.
Lemma inSeg_digit c : is_digit c = true -> inSeg c = true.
Proof.
  intros H. apply digit_code in H. unfold inSeg, isLetter.
  destruct (N.ltb_spec (code c) 128); [|lia].
  destruct (N.leb_spec 65 (code c)); [lia|]. destruct (N.leb_spec 97 (code c)); [lia|]. reflexivity.
Qed.
Lemma inSeg_num n : legal_numeral n = true -> all_chars inSeg (num_text n) = true.
Proof.
  intros Hn. apply legal_parts in Hn as (Hi & Hf & He). unfold num_text, unsigned_text.
  assert (HD : forall s, digits s = true -> all_chars inSeg s = true)
    by (intro; apply all_chars_imp; apply inSeg_digit).
  rewrite !all_chars_app, (HD _ Hi).
  destruct (n_sign n), (n_frac n) as [f|], (n_exp n) as [[[] ds]|]; cbn [String.append all_chars andb];
    rewrite ?HD by tauto; reflexivity.
Qed.
Lemma inSeg_items l : forall prev, legal_items prev l = true -> all_chars inSeg (items_text l) = true.
Proof.
  induction l as [|[sep n] l IH]; intros prev H; [reflexivity|].
  cbn [legal_items] in H. apply andb_prop in H as [H Hr]. apply andb_prop in H as [H _].
  apply andb_prop in H as [Hs Hn].
  cbn [items_text]. rewrite !all_chars_app, (IH _ Hr), (inSeg_num n Hn). cbn [andb]. rewrite andb_true_r.
  revert Hs. apply all_chars_imp, inSeg_sep.
Qed.
Lemma inSeg_numbers s vs : spells_numbers E s vs -> all_chars inSeg s = true.
Proof.
  intros (l & trail & -> & Hl & Ht & _). rewrite all_chars_app, (inSeg_items _ _ Hl).
  revert Ht. apply all_chars_imp, inSeg_sep.
Qed.
Lemma seps_numbers t : seps t = true -> spells_numbers E t [].
Proof. intros H. exists [], t. repeat split; auto. Qed.

Definition seg_for (seg : string) (k : cmd) : Prop :=
  exists key t, seg = String key t /\ spells_numbers E t (args E k)
    /\ (key = letter E k \/ key = "z"%char /\ k = ClosePath).

Lemma letter_split k : isLetter E (code (letter E k)) && negb (code (letter E k) =? 101)%N = true.
Proof. destruct k; cbn [letter]; try destruct rel; reflexivity. Qed.

(** the segments of a spelled list of commands, followed by [rest] that is empty or starts with
    a new command letter *)
Definition fresh (l : list (N * string)) : Prop :=
  match l with [] => True | (u, _) :: _ => isLetter E u && negb (u =? 101)%N = true end.
Lemma sg_fresh l s : fresh l -> sg (Some s) l = s :: sg None l.
Proof.
  destruct l as [|[u b] l]; [reflexivity|]. cbn [fresh ProofsTok.sg]. intros ->. reflexivity.
Qed.
Lemma fresh_spelled s cs l : spells_commands E s cs -> fresh l -> fresh (ascii_runes s ++ l).
Proof.
  intros H Hl. destruct H as [|c t s cs Ht Hs|t s cs Ht Hs]; cbn [ascii_runes app fresh]; auto.
  apply letter_split.
Qed.

Lemma sg_spelled s cs : spells_commands E s cs -> forall rest, fresh rest ->
  exists segs, sg None (ascii_runes s ++ rest) = segs ++ sg None rest /\ Forall2 seg_for segs cs.
Proof.
  induction 1 as [|c t s cs Ht Hs IH|t s cs Ht Hs IH]; intros rest Hf.
  - exists []. split; [reflexivity|constructor].
  - destruct (IH rest Hf) as (segs & Hsg & HF).
    exists (String (letter E c) t :: segs). split.
    + cbn [ascii_runes app]. rewrite sg_letter by apply letter_split. cbn [app].
      rewrite ascii_runes_app, <- app_assoc, sg_in by (eapply inSeg_numbers; eauto).
      rewrite sg_fresh by (eapply fresh_spelled; eauto). rewrite Hsg. reflexivity.
    + constructor; [|exact HF]. exists (letter E c), t. auto.
  - destruct (IH rest Hf) as (segs & Hsg & HF).
    exists (String "z" t :: segs). split.
    + cbn [ascii_runes app]. rewrite sg_letter by reflexivity. cbn [app].
      rewrite ascii_runes_app, <- app_assoc, sg_in by (eapply inSeg_numbers, seps_numbers; eauto).
      rewrite sg_fresh by (eapply fresh_spelled; eauto). rewrite Hsg. reflexivity.
    + constructor; [|exact HF]. exists "z"%char, t. repeat split; auto. apply seps_numbers; assumption.
Qed.
Lemma spells_commands_ascii s cs : spells_commands E s cs -> all_chars is_ascii s = true.
Proof.
  induction 1 as [|c t s cs Ht Hs IH|t s cs Ht Hs IH]; [reflexivity| |]; cbn [all_chars];
    rewrite all_chars_app, IH.
  - rewrite (spells_numbers_ascii _ _ Ht). destruct c; cbn [letter]; try destruct rel; reflexivity.
  - rewrite (seps_ascii _ Ht). reflexivity.
Qed.

(** ** refinement *)
Section Refine.
Context (fadd_comm : forall a b, fadd E a b = fadd E b a).
Context (off : point).

Lemma addSeg_good seg k s (c : pcur) : seg_for seg k -> sim off s c -> (k = ClosePath -> pc_inPath c = true) ->
  exists c', addSeg seg c = (c', Ret tt)
    /\ sim off (fst (exec E off s k)) c'
    /\ pc_path c' = pc_path c ++ snd (exec E off s k)
    /\ pc_inPath c' = opens k (pc_inPath c)
    /\ pc_mode c' = pc_mode c /\ pc_log c' = pc_log c.
Proof.
  intros (key & t & -> & Ht & Hkey) Hs Hcl.
  rewrite addSeg_eq, (numbers_spelled _ _ Ht). cbn [fst snd].
  assert (Hsw : segSwitch key (length (args E k)) (set_points (args E k) c)
              = segSwitch (letter E k) (length (args E k)) (set_points (args E k) c)).
  { destruct Hkey as [->|[-> ->]]; reflexivity. }
  destruct (good_cmd fadd_comm off k s (set_points (args E k) c)) as (c' & H1 & H2 & H3 & H4 & H5 & H6); auto.
  { apply sim_setpoints; assumption. }
  unfold bind. rewrite Hsw, H1. unfold modify. eexists; split; [reflexivity|].
  repeat split; auto; try apply H2.
  destruct Hkey as [->|[-> ->]]; [apply H2|]. cbn. cbn [exec fst] in H2. repeat split.
Qed.

Lemma segs_good segs cs : Forall2 seg_for segs cs -> forall s (c : pcur), sim off s c ->
  closes_open E (pc_inPath c) cs = true ->
  exists c', mapM addSeg segs c = (c', Ret tt)
    /\ sim off (fst (run E off s cs)) c'
    /\ pc_path c' = pc_path c ++ snd (run E off s cs)
    /\ pc_mode c' = pc_mode c /\ pc_log c' = pc_log c.
Proof.
  induction 1 as [|seg k segs cs Hseg _ IH]; intros s c Hs Hcl.
  - exists c. cbn. rewrite app_nil_r. auto.
  - destruct (addSeg_good seg k s c Hseg Hs) as (c1 & H1 & H2 & H3 & H4 & H5 & H6).
    { intros ->. cbn in Hcl. apply andb_prop in Hcl. tauto. }
    destruct (IH (fst (exec E off s k)) c1 H2) as (c2 & I1 & I2 & I3 & I5 & I6).
    { rewrite H4. destruct k; cbn in Hcl |- *; auto. apply andb_prop in Hcl. tauto. }
    exists c2. cbn [mapM]. unfold bind. rewrite H1, I1.
    unfold run in *. cbn [many]. destruct (exec E off s k) as [s1 o1]. cbn [fst snd] in *.
    destruct (many E (exec E off) s1 cs) as [s2 o2]. cbn [fst snd] in *.
    repeat split; auto; try apply I2; try congruence.
    rewrite I3, H3, app_assoc. reflexivity.
Qed.

Lemma sim_init (c : pcur) : offc c = off -> sim off (pen0 E) (fst (pinit c)).
Proof. intros H. split; cbn; auto. discriminate. Qed.
End Refine.

Theorem compilePath_draws (fadd_comm : forall a b, fadd E a b = fadd E b a) s cs (c : pcur) :
  spells E s cs -> closes_open E false cs = true ->
  exists c', compilePath s c = (c', Ret tt)
    /\ pc_path c' = draws E (pc_curX c, pc_curY c) cs
    /\ (pc_placeX c', pc_placeY c') = at_ (fst (run E (pc_curX c, pc_curY c) (pen0 E) cs))
    /\ pc_log c' = pc_log c.
Proof.
  intros (lead & body & -> & Hlead & Hbody) Hcl.
  rewrite compilePath_segments. unfold bind.
  destruct (sg_spelled body cs Hbody [] I) as (segs & Hsg & HF). rewrite !app_nil_r in Hsg.
  assert (Hs : segments (E := E) (lead ++ body) = segs).
  { unfold segments. rewrite runes_ascii.
    - rewrite ascii_runes_app, sg_in; [exact Hsg|]. revert Hlead. apply all_chars_imp, inSeg_sep.
    - rewrite all_chars_app, (seps_ascii _ Hlead), (spells_commands_ascii _ _ Hbody). reflexivity. }
  rewrite Hs.
  destruct (segs_good fadd_comm (offc c) segs cs HF (pen0 E) (fst (pinit c)) (sim_init (offc c) c eq_refl) Hcl)
    as (c' & H1 & H2 & H3 & H4 & H5).
  exists c'. change (pinit c) with (fst (pinit c), @Ret unit tt). cbv iota beta. rewrite H1.
  split; [reflexivity|]. split; [exact H3|]. split; [apply H2|exact H5].
Qed.

(** ** wrong argument counts *)
Lemma bad_not_sets k sz n : set_size k = Some (S sz) -> good_count k n = false ->
  n < S sz \/ Nat.modulo n (S sz) <> 0.
Proof.
  unfold good_count. intros -> H. apply andb_false_iff in H as [H|H].
  - apply negb_false_iff, Nat.eqb_eq in H. lia.
  - apply Nat.eqb_neq in H. auto.
Qed.

Lemma set_size_known k sz : set_size k = Some sz ->
  List.In k ["Z"; "z"; "H"; "h"; "V"; "v"; "M"; "m"; "L"; "l"; "T"; "t"; "Q"; "q"; "S"; "s"; "C"; "c"; "A"; "a"]%char.
Proof.
  unfold set_size. cbv beta zeta. intros Hk.
  repeat match type of Hk with
    | (if existsb (Ascii.eqb k) ?l then _ else _) = _ =>
      let Hx := fresh in destruct (existsb (Ascii.eqb k) l) eqn:Hx;
      [apply existsb_exists in Hx as (d & Hd & He); apply Ascii.eqb_eq in He; subst d; cbn in Hd |- *; tauto|]
    end. discriminate.
Qed.
Lemma sets_bad (m : P unit) sz rel k (c : pcur) : m = (requireSets sz rel ;; k) ->
  (length (pc_points c) < sz \/ Nat.modulo (length (pc_points c)) sz <> 0) ->
  m c = (c, Err ErrParamMismatch).
Proof. intros -> H. unfold bind. rewrite requireSets_bad by assumption. reflexivity. Qed.
Lemma vals_bad (m r : P unit) k (c : pcur) : m = (r ;; requireSets 1 false ;; k) -> r c = (c, Ret tt) ->
  pc_points c = [] -> m c = (c, Err ErrParamMismatch).
Proof. intros -> Hr H. unfold bind. rewrite Hr, requireSets_bad by (rewrite H; cbn; auto). reflexivity. Qed.
Lemma segSwitch_bad k sz (c : pcur) : set_size k = Some sz ->
  good_count k (length (pc_points c)) = false ->
  segSwitch k (length (pc_points c)) c = (c, Err ErrParamMismatch).
Proof.
  intros Hk Hbad. pose proof (set_size_known k sz Hk) as HK. cbn in HK. clear sz Hk.
  assert (Hz : good_count "Z" (length (pc_points c)) = false -> segZ c = (c, Err ErrParamMismatch)).
  { intros H. unfold segZ, points, gets, bind. destruct (pc_points c); [discriminate|reflexivity]. }
  assert (Hv : good_count "h" (length (pc_points c)) = false -> pc_points c = []).
  { intros H. destruct (pc_points c) as [|x l]; [reflexivity|]. cbn [length] in H.
    unfold good_count in H. cbn [set_size existsb] in H. cbn [Nat.eqb negb andb] in H.
    change (set_size "h") with (Some 1) in H. cbv iota in H. rewrite Nat.mod_1_r in H. discriminate. }
  assert (Hr : pc_points c = [] -> forall v, valsToAbs v c = (c, Ret tt)).
  { intros H v. unfold valsToAbs, modify. rewrite H. cbn [vals_abs]. rewrite <- H. destruct c; reflexivity. }
  repeat (destruct HK as [HK|HK]; [subst k|]); try destruct HK.
  1,2: apply Hz; exact Hbad.
  1-4: eapply vals_bad; [reflexivity| |apply Hv; exact Hbad]; first [reflexivity|apply Hr; apply Hv; exact Hbad].
  all: eapply sets_bad; [reflexivity|refine (bad_not_sets _ _ _ _ Hbad); reflexivity].
Qed.

Lemma inSeg_letter_known k sz : set_size k = Some sz ->
  isLetter E (code k) && negb (code k =? 101)%N = true.
Proof.
  intros Hk. apply set_size_known in Hk. cbn in Hk.
  repeat (destruct Hk as [<-|Hk]; [reflexivity|]). destruct Hk.
Qed.

Theorem compilePath_bad_count (fadd_comm : forall a b, fadd E a b = fadd E b a)
  lead body cs k sz t vs rest (c : pcur) :
  seps lead = true -> spells_commands E body cs -> closes_open E false cs = true ->
  set_size k = Some sz -> spells_numbers E t vs -> good_count k (length vs) = false ->
  match rest with
  | EmptyString => True
  | String a _ => is_alpha a = true /\ a <> "e"%char
  end ->
  exists c', compilePath (lead ++ body ++ String k (t ++ rest)) c = (c', Err ErrParamMismatch)
    /\ pc_path c' = draws E (pc_curX c, pc_curY c) cs /\ pc_log c' = pc_log c.
Proof.
  intros Hlead Hbody Hcl Hk Ht Hbad Hrest.
  rewrite compilePath_segments. unfold bind.
  assert (Hfr : fresh (runes rest)).
  { destruct rest as [|a r]; [exact I|]. destruct Hrest as [Ha He].
    unfold is_alpha in Ha.
    assert (Hasc : (code a < 128)%N).
    { apply orb_prop in Ha as [Ha|Ha]; apply andb_prop in Ha as [H1 H2]; apply N.leb_le in H1, H2; lia. }
    unfold runes. cbn [String.length runesF]. unfold decode_rune.
    destruct (N.ltb_spec (code a) 128); [|lia]. cbn [fresh].
    unfold isLetter. destruct (N.ltb_spec (code a) 128); [|lia]. rewrite Ha.
    change 101%N with (code "e"). rewrite eqb_code. apply Ascii.eqb_neq in He. rewrite He. reflexivity. }
  pose proof (inSeg_letter_known k sz Hk) as HkL.
  assert (Hkasc : is_ascii k = true).
  { unfold isLetter in HkL. unfold is_ascii. destruct (N.ltb_spec (code k) 128); [reflexivity|].
    assert (HK : List.In k ["Z"; "z"; "H"; "h"; "V"; "v"; "M"; "m"; "L"; "l"; "T"; "t"; "Q"; "q"; "S"; "s"; "C"; "c"; "A"; "a"]%char)
      by (eapply set_size_known; eauto).
    cbn in HK. repeat (destruct HK as [HK|HK]; [subst k; cbn in H; lia|]). destruct HK. }
  assert (Hs : exists segs, segments (E := E) (lead ++ body ++ String k (t ++ rest))
     = segs ++ String k t :: sg None (runes rest) /\ Forall2 seg_for segs cs).
  { unfold segments. rewrite runes_app_ascii by (apply seps_ascii; assumption).
    rewrite sg_in by (revert Hlead; apply all_chars_imp, inSeg_sep).
    rewrite runes_app_ascii by (eapply spells_commands_ascii; eauto).
    replace (String k (t ++ rest)) with (String k t ++ rest)%string by reflexivity.
    rewrite runes_app_ascii by (cbn [all_chars]; rewrite Hkasc; eapply spells_numbers_ascii; eauto).
    destruct (sg_spelled body cs Hbody (ascii_runes (String k t) ++ runes rest)) as (segs & Hsg & HF).
    { cbn [ascii_runes app fresh]. exact HkL. }
    exists segs. split; [|exact HF]. rewrite Hsg. f_equal.
    cbn [ascii_runes app]. rewrite sg_letter by exact HkL. cbn [app].
    rewrite sg_in by (eapply inSeg_numbers; eauto). apply sg_fresh. exact Hfr. }
  destruct Hs as (segs & -> & HF).
  change (pinit c) with (fst (pinit c), @Ret unit tt). cbv iota beta.
  rewrite mapM_app. unfold bind.
  destruct (segs_good fadd_comm (offc c) segs cs HF (pen0 E) (fst (pinit c)) (sim_init (offc c) c eq_refl) Hcl)
    as (c' & H1 & H2 & H3 & H4 & H5).
  rewrite H1. cbn [mapM]. unfold bind. rewrite addSeg_eq, (numbers_spelled _ _ Ht). cbn [fst snd].
  pose proof (segSwitch_bad k sz (set_points vs c') Hk Hbad) as K1.
  cbn [pc_points set_points] in K1. unfold bind. rewrite K1.
  exists (set_points vs c'). split; [reflexivity|]. split; [exact H3|exact H5].
Qed.
End P2.

(** * ProofsMono: elements stay right when more numbers and more colours are known (C75) *)
From Coq Require Import Reals Lra Lia.
From Verif Require Import F64 RealEnv SpecValid ProofsArc ProofsAngle ProofsValid4.

Section Mono.
Context (E1 E2 : Env) (m1 m2 : errorMode).
Context (Hnum : forall w, parseFloat E1 w <> None -> parseFloat E2 w <> None).
Context (Hcol : forall w, colorname E1 w <> None -> colorname E2 w <> None).
Context (Hmode : m2 = StrictErrorMode -> m1 = StrictErrorMode).

Lemma mono_length v : valid_length E1 v -> valid_length E2 v.
Proof. intros (w & L & H). exists w. split; [exact L|exact (Hnum w H)]. Qed.
Lemma mono_mode : m1 <> StrictErrorMode -> m2 <> StrictErrorMode.
Proof. intros H K. exact (H (Hmode K)). Qed.
Lemma mono_colour v : valid_colour E1 v -> valid_colour E2 v.
Proof. intros [H|[H|[H|H]]]; [left; exact H|right; left; exact H|right; right; left; exact (Hcol _ H)|right; right; right; exact H]. Qed.
Lemma mono_words ws : forall xs, Forall2 (fun w x => word_value E1 w = Some x) ws xs ->
  exists ys, Forall2 (fun w y => word_value E2 w = Some y) ws ys /\ List.length ys = List.length xs.
Proof.
  induction ws as [|w ws IH]; intros xs H; inversion H; subst; [exists []; split; [constructor|reflexivity]|].
  destruct (IH _ H4) as (ys & Y & L). assert (K := Hnum w). unfold word_value in H2 |- *.
  destruct (parseFloat E1 w); [|discriminate]. destruct (parseFloat E2 w) as [z|] eqn:Z; [|destruct K; congruence].
  exists (fmul E2 z (fnum E2 1) :: ys). split; [constructor; [rewrite Z; reflexivity|exact Y]|cbn [List.length]; rewrite L; reflexivity].
Qed.
Ltac cut_list ys := repeat (destruct ys as [|? ys]; cbn [List.length] in *; try discriminate).
Lemma mono_takes name xs ys f : List.length ys = List.length xs -> function_takes E1 name xs f -> exists g, function_takes E2 name ys g.
Proof.
  intros L [H|(x & H1 & H2 & H3)].
  - destruct f; cbn [tfun_reads] in H; destruct H as [Hn Ha]; subst name.
    + subst xs. cut_list ys. eexists. left. exact (conj eq_refl eq_refl : tfun_reads E2 "translate" [_; _] (Translate E2 _ _)).
    + destruct Ha as [->|[-> _]]; cut_list ys; eexists; left.
      * exact (conj eq_refl (or_introl eq_refl) : tfun_reads E2 "scale" [_; _] (Scale E2 _ _)).
      * exact (conj eq_refl (or_intror (conj eq_refl eq_refl)) : tfun_reads E2 "scale" [_] (Scale E2 _ _)).
    + subst xs. cut_list ys. eexists. left. exact (conj eq_refl eq_refl : tfun_reads E2 "rotate" [_] (Rotate E2 _)).
    + subst xs. cut_list ys. eexists. left. exact (conj eq_refl eq_refl : tfun_reads E2 "rotate" [_; _; _] (RotateAt E2 _ _ _)).
    + subst xs. cut_list ys. eexists. left. exact (conj eq_refl eq_refl : tfun_reads E2 "skewx" [_] (SkewX E2 _)).
    + subst xs. cut_list ys. eexists. left. exact (conj eq_refl eq_refl : tfun_reads E2 "skewy" [_] (SkewY E2 _)).
    + subst xs. destruct ys as [|a [|b [|c [|d [|e [|g [|? ?]]]]]]]; try discriminate.
      exists (MatrixFn E2 {| mA := a; mB := b; mC := c; mD := d; mE := e; mF := g |}). left. split; reflexivity.
  - subst. cut_list ys. eexists. right. eexists. split; [reflexivity|]. split; reflexivity.
Qed.
Lemma mono_part s fs : part_reads E1 s fs -> exists gs, part_reads E2 s gs.
Proof.
  intros [s' B|l name m args vs f B1 B2 N W T]; [exists []; constructor; exact B|].
  destruct (mono_words _ _ W) as (ys & Y & L). destruct (mono_takes _ _ _ _ L T) as (g & G). exists [g]. exact (pr_call E2 l name m args ys g B1 B2 N Y G).
Qed.
Lemma mono_transform v : (exists fs, transform_reads_as E1 v fs) -> exists gs, transform_reads_as E2 v gs.
Proof.
  intros (fs & fss & H & _). assert (K : exists gss, Forall2 (part_reads E2) (parts_of v) gss).
  { induction H as [|s fl ss fls Hs _ (gss & G)]; [exists []; constructor|]. destruct (mono_part _ _ Hs) as (gs & Gs). exists (gs :: gss). constructor; assumption. }
  destruct K as (gss & G). exists (List.concat gss), gss. split; [exact G|reflexivity].
Qed.
Lemma mono_data cs : right_data E1 m1 cs -> right_data E2 m2 cs.
Proof.
  apply Forall_impl. intros c [H1 H2]. split; [exact (Forall_impl _ Hnum H1)|]. destruct (set_size _); [exact H2|exact (mono_mode H2)].
Qed.
Lemma mono_decl k v : valid_decl E1 m1 k v -> valid_decl E2 m2 k v.
Proof.
  intros [A B C T M K]. constructor.
  - intros H. exact (mono_length _ (A H)).
  - intros H. destruct (B H) as [H'|H']; [left; exact H'|right]. intros w W. exact (mono_length _ (H' w W)).
  - intros H. exact (mono_colour _ (C H)).
  - intros H. exact (mono_transform _ (T H)).
  - exact M.
  - intros ws H. destruct (K ws H) as [H'|H']; [left; exact H'|right; exact (mono_mode H')].
Qed.
Lemma mono_attribute name a : valid_attribute E1 m1 name a -> valid_attribute E2 m2 name a.
Proof.
  intros [A B C P D]. constructor.
  - intros H. exact (mono_length _ (A H)).
  - exact B.
  - intros H K. destruct (C H K) as (xs & X & L). destruct (mono_words _ _ X) as (ys & Y & Ly). exists ys. split; [exact Y|congruence].
  - intros H K. destruct (P H K) as (xs & X & L). destruct (mono_words _ _ X) as (ys & Y & Ly). exists ys. split; [exact Y|congruence].
  - intros H K. exact (mono_data _ (D H K)).
Qed.
Lemma mono_fraction v : valid_fraction E1 v -> valid_fraction E2 v.
Proof.
  intros (w & P & [(m & H & L)|[H L]]); exists w; (split; [exact P|]); [left; exists m; split; [exact H|]|right; split; [exact H|]]; exact (mono_length _ L).
Qed.
Lemma mono_stop attrs : valid_stop E1 attrs -> valid_stop E2 attrs.
Proof.
  intros H k v S. destruct (H k v S) as (A & B & C). split; [|split]; intros K.
  - exact (mono_fraction _ (A K)).
  - exact (mono_colour _ (B K)).
  - exact (mono_length _ (C K)).
Qed.
Lemma mono_gradient name attrs : valid_gradient E1 name attrs -> valid_gradient E2 name attrs.
Proof.
  intros [A B C]. constructor.
  - intros n v H K. exact (mono_length _ (A n v H K)).
  - intros n v H K. exact (mono_length _ (B n v H K)).
  - intros v H. exact (mono_transform _ (C v H)).
Qed.
Theorem mono_at p : valid_at E1 m1 p -> valid_at E2 m2 p.
Proof.
  intros [A B C D F]. constructor.
  - intros a k v H K. exact (mono_decl _ _ (A a k v H K)).
  - intros H. destruct (B H) as [K|K]; [left; exact K|right; exact (mono_mode K)].
  - intros H. exact (Forall_impl _ (mono_attribute _) (C H)).
  - intros H K. exact (mono_stop _ (D H K)).
  - intros H. exact (mono_gradient _ _ (F H)).
Qed.
End Mono.

Definition turning (E : Env) (k : nat) : Prop := forall y1 x1 y2 x2 f, k <= f -> raise_angle (E := E) f (fatan2 E y1 x1) (fatan2 E y2 x2) <> NoFuel.
Theorem accepted_mono (E1 E2 : Env) (m1 m2 : errorMode) (f1 f2 k1 k2 : nat) : turning E1 k1 -> k1 <= f1 -> turning E2 k2 -> k2 <= f2 -> lower_url E1 -> lower_url E2 ->
  (forall w, parseFloat E1 w <> None -> parseFloat E2 w <> None) -> (forall w, colorname E1 w <> None -> colorname E2 w <> None) ->
  (m2 = StrictErrorMode -> m1 = StrictErrorMode) ->
  forall ns, forallb (well_nested false false) ns = true -> flat_map elements_of ns <> [] -> Forall ascii_attrs (flat_map elements_of ns) ->
  accepts E1 f1 m1 ns -> accepts E2 f2 m2 ns.
Proof.
  intros T1 L1 T2 L2 U1 U2 Hn Hc Hm ns W N A H.
  apply (accepted_valid m1 f1 k1 T1 L1 U1 ns W N A) in H. apply (accepted_valid m2 f2 k2 T2 L2 U2 ns W N A).
  exact (Forall_impl _ (mono_at E1 E2 m1 m2 Hn Hc Hm) H).
Qed.

Lemma turns_real (Q : ROracles) : turning (RealEnv Q) 1.
Proof.
  intros y1 x1 y2 x2 f Hf. destruct f as [|f]; [lia|]. cbn [raise_angle fltb fatan2 RealEnv].
  destruct (Rlt_dec _ _) as [H|H]; [|discriminate]. assert (A := atan2_range y1 x1). assert (B := atan2_range y2 x2). assert (P := PI_RGT_0).
  destruct f as [|f]; cbn [raise_angle fltb fadd RealEnv]; destruct (Rlt_dec _ _) as [K|K]; try discriminate; exfalso; revert K; unfold twoPi; cbn [fmul fpi RealEnv fnum flit];
  change (flit (RealEnv Q) 2 1) with (IZR 2 / IZR 1)%R; lra.
Qed.

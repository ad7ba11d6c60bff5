(** * ProofsNoise: comments and text outside titles and descriptions (C46) *)
From Coq Require Import Lia.
From Verif Require Export SpecNoise ProofsFlags.
Local Open Scope go_scope.

Section Noise.
Context {E : Env}.
Notation cursor := (cursor E).

(** ** Comments and pieces of text *)
(** the same result, but for the state after a panic *)
Definition equiv (r r' : cursor * outcome unit) : Prop := r = r' \/ snd r = Panic /\ snd r' = Panic.
Lemma equiv_refl r : equiv r r. Proof. left. reflexivity. Qed.
Lemma equiv_sym r r' : equiv r r' -> equiv r' r. Proof. unfold equiv. intuition. Qed.
Lemma equiv_trans a b c : equiv a b -> equiv b c -> equiv a c.
Proof. unfold equiv. intros [->|[A B]] [->|[C D]]; auto. Qed.
Lemma equiv_bind (m m' : @C E unit) (k k' : @C E unit) c : equiv (m c) (m' c) -> (forall c, equiv (k c) (k' c)) -> equiv ((m ;; k) c) ((m' ;; k') c).
Proof.
  intros [H|[H1 H2]] Hk; unfold bind.
  - rewrite <- H. destruct (m c) as [c1 [[]|e| |]]; [apply Hk|left; reflexivity..].
  - destruct (m c) as [c1 o1], (m' c) as [c2 o2]. cbn in H1, H2. subst. right. split; reflexivity.
Qed.
Lemma append_last_app T s t : appendLast T (s ++ t) = match appendLast T s with Ret T1 => appendLast T1 t | Err e => Err e | Panic => Panic | NoFuel => NoFuel end.
Proof.
  unfold appendLast. destruct (rev T) as [|x r]; [reflexivity|]. rewrite rev_app_distr, rev_involutive. cbn [rev app]. now rewrite sapp_assoc.
Qed.
Lemma append_last_ret T s T1 t : appendLast T s = Ret T1 -> exists T2, appendLast T1 t = Ret T2.
Proof. unfold appendLast. destruct (rev T) as [|x r]; [discriminate|]. intros H. injection H as <-. rewrite rev_app_distr. cbn [rev app]. eauto. Qed.
Lemma append_last_not T s : match appendLast T s with Ret _ | Panic => True | _ => False end.
Proof. unfold appendLast. destruct (rev T); exact I. Qed.
Lemma cut_chars s t (c : cursor) : equiv ((charData s ;; charData t) c) (charData (s ++ t) c).
Proof.
  destruct c as [pc [vb T Dd P tr M w h gr df mh] stk gr' cd i1 i2 i3 i4 i5 cu mk].
  unfold charData, bind, gets, onSvg, modify, lift, ret; cbn [c_inTitle c_inDesc c_svg sv_titles sv_descs].
  rewrite !append_last_app.
  pose proof (append_last_not T s) as N1. pose proof (append_last_not Dd s) as N2.
  pose proof (append_last_ret T s) as K1. pose proof (append_last_ret Dd s) as K2.
  destruct i1, i2; cbn; try (left; reflexivity).
  - destruct (appendLast T s) as [T1|e| |]; try contradiction; [|right; split; reflexivity]. destruct (K1 T1 t eq_refl) as (T2 & HT). rewrite HT. cbn.
    destruct (appendLast Dd s) as [D1|e| |]; try contradiction; [|right; split; reflexivity]. destruct (K2 D1 t eq_refl) as (D2 & HD). cbn.
    rewrite HT. cbn. rewrite HD. left. reflexivity.
  - destruct (appendLast T s) as [T1|e| |]; try contradiction; [|right; split; reflexivity]. destruct (K1 T1 t eq_refl) as (T2 & HT). cbn. rewrite HT. left. reflexivity.
  - destruct (appendLast Dd s) as [D1|e| |]; try contradiction; [|right; split; reflexivity]. destruct (K2 D1 t eq_refl) as (D2 & HD). cbn. rewrite HD. left. reflexivity.
Qed.
Lemma bind_assoc {A B} (m : @C E A) (f : A -> @C E B) (k : B -> @C E unit) c : bind (bind m f) k c = bind m (fun a => bind (f a) k) c.
Proof. unfold bind. destruct (m c) as [c1 [a|e| |]]; reflexivity. Qed.
Lemma recut_run fuel l l' : recut l l' -> forall c, equiv (mapM (stepToken (E := E) fuel) l c) (mapM (stepToken fuel) l' c).
Proof.
  induction 1 as [|t l l' H IH|l l' H IH|s t l l' H IH|l1 l2 l3 H1 IH1 H2 IH2|l1 l2 H IH]; intros c.
  - apply equiv_refl.
  - cbn [mapM]. apply equiv_bind; [apply equiv_refl|exact IH].
  - cbn [mapM stepToken]. change ((ret tt ;; mapM (stepToken fuel) l) c) with (mapM (stepToken (E := E) fuel) l c). apply IH.
  - cbn [mapM stepToken].
    pose proof (equiv_bind (charData s ;; charData t) (charData (s ++ t)) (mapM (stepToken fuel) l) (mapM (stepToken fuel) l') c (cut_chars s t c) IH) as K.
    rewrite bind_assoc in K. exact K.
  - eapply equiv_trans; [apply IH1|apply IH2].
  - apply equiv_sym, IH.
Qed.
Lemma recut_seen l l' : recut l l' -> seenTag l = seenTag l'.
Proof. induction 1; cbn [seenTag existsb] in *; unfold seenTag in *; try congruence; cbn [existsb orb] in *; congruence. Qed.
Lemma equiv_parse fuel mode l l' tm : seenTag l = seenTag l' -> equiv (mapM (stepToken (E := E) fuel) l (cursor0 mode)) (mapM (stepToken fuel) l' (cursor0 mode)) ->
  parse (E := E) fuel mode l tm = parse fuel mode l' tm.
Proof.
  intros Hs H. unfold parse. rewrite Hs. destruct H as [->|[H1 H2]]; [reflexivity|].
  destruct (mapM (stepToken fuel) l (cursor0 mode)) as [c o], (mapM (stepToken fuel) l' (cursor0 mode)) as [c' o']. cbn in H1, H2. subst. reflexivity.
Qed.
Theorem recut_same fuel mode l l' tm : recut l l' -> parse (E := E) fuel mode l tm = parse fuel mode l' tm.
Proof. intros H. apply equiv_parse; [apply recut_seen, H|apply recut_run, H]. Qed.

(** ** Text outside titles and descriptions *)
(** the conditions on a node, inside a gradient or not *)
Definition fits (u d g : bool) (n : node) : bool :=
  if g then match n with Elem name _ kids => String.eqb name "stop" && no_elements kids | _ => true end
  else tidy u d n && flat_ok false d "title" n && flat_ok false d "desc" n.
Lemma fits_tri fuel u d g mn n T Dd : fits u d g n = true ->
  tri (st u d g false false mn T Dd None) (mapM (stepToken (E := E) fuel) (tokens n))
    (fun _ c => exists T' Dd', st u d g false false mn T' Dd' None c) (fun _ _ => True).
Proof.
  intros H. destruct g; cbn [fits] in H.
  - assert (Hs : stops_only [n] = true) by (cbn [stops_only forallb]; rewrite andb_true_r; exact H).
    intros c Hc. pose proof (stops_tri fuel u d false false mn None [n] I Hs T Dd c Hc) as K. cbn [flat_map] in K. rewrite app_nil_r in K.
    destruct (mapM (stepToken fuel) (tokens n) c) as [c1 [[]|e| |]]; eauto.
  - rewrite !andb_true_iff in H. destruct H as [[H1 H2] H3]. eapply tri_weaken; [apply (node_tri fuel u n d false false mn T Dd None H1 H2 H3 I)|..]; cbn; auto. intros a c Hc. eauto.
Qed.
(** where the children of an element are *)
Definition inside (d g : bool) (name : string) : bool * bool :=
  if g then (d, true) else if is_gradient name then (d, true) else if d then (true, false) else (String.eqb name "defs", false).
Lemma start_tri fuel u d g mn name attrs kids T Dd : fits u d g (Elem name attrs kids) = true -> name <> "title"%string -> name <> "desc"%string ->
  tri (st u d g false false mn T Dd None) (stepToken (E := E) fuel (TStart name attrs))
    (fun _ c => exists mn' T' Dd', st u (fst (inside d g name)) (snd (inside d g name)) false false mn' T' Dd' None c) (fun _ _ => True).
Proof.
  intros H N1 N2. unfold inside. destruct g; cbn [fits] in H.
  { apply andb_true_iff in H. destruct H as [H _]. apply String.eqb_eq in H. subst name. cbn [fst snd].
    eapply tri_weaken; [apply (start_stop fuel attrs u d false false mn T Dd None)|..]; cbn; auto. intros a c Hc. eauto. }
  rewrite !andb_true_iff in H. destruct H as [[H _] _]. cbn [tidy] in H. destruct (is_gradient name) eqn:Hg; cbn [fst snd].
  { eapply tri_weaken; [apply (start_gradient fuel name attrs u d false false mn T Dd None Hg)|..]; cbn; auto. intros a c Hc. eauto. }
  destruct d; cbn [fst snd].
  { apply andb_true_iff in H. destruct H as [Ht Hkids]. apply andb_true_iff in Ht. destruct Ht as [Hnd Hpl].
    eapply tri_weaken; [apply (start_in_defs fuel name attrs u false false mn T Dd None Hg)|..]; cbn; auto.
    - intros ->. cbn [negb orb] in Hpl. unfold plain_tag in Hpl. apply negb_true_iff in Hpl. unfold special. cbn [existsb] in *. rewrite !orb_false_iff in *.
      apply negb_true_iff in Hnd. unfold is_gradient in Hg. rewrite orb_false_iff in Hg. tauto.
    - intros a c Hc. eauto. }
  apply andb_true_iff in H. destruct H as [Hu _].
  destruct (String.eqb_spec name "defs") as [->|N3].
  { eapply tri_weaken; [apply (start_defs fuel attrs u false false false mn T Dd None)|..]; cbn; auto. intros a c Hc. eauto. }
  destruct (String.eqb_spec name "mask") as [->|N4].
  { eapply tri_weaken; [apply (start_mask fuel attrs u false false false mn T Dd)|..]; cbn; auto. intros a c Hc. eauto. }
  eapply tri_weaken; [apply (start_plain fuel name attrs u false false false mn T Dd)|..]; cbn; auto.
  - apply String.eqb_neq in N1, N2, N3, N4. unfold special. cbn [existsb]. rewrite N1, N2, N3, N4. unfold is_gradient in Hg. rewrite orb_false_iff in Hg. destruct Hg as [-> ->]. reflexivity.
  - intros ->. destruct u; [reflexivity|discriminate].
  - intros a c Hc. eauto.
Qed.
Lemma fits_kids u d g name attrs kids : fits u d g (Elem name attrs kids) = true -> name <> "title"%string -> name <> "desc"%string ->
  forallb (fits u (fst (inside d g name)) (snd (inside d g name))) kids = true.
Proof.
  intros H N1 N2. apply forallb_forall. intros k Hk. unfold inside. destruct g; cbn [fits fst snd] in *.
  { apply andb_true_iff in H. destruct H as [_ H]. unfold no_elements in H. rewrite forallb_forall in H. specialize (H k Hk). now destruct k. }
  rewrite !andb_true_iff in H. destruct H as [[H H1] H2].
  assert (FK : forall d' t, name <> t -> flat_ok false d t (Elem name attrs kids) = true -> (d = true -> d' = true) -> flat_ok false d' t k = true).
  { intros d' t Hn Hf Hd. eapply flat_kids; [exact Hf|left; exact Hn|exact Hd|exact Hk]. }
  cbn [tidy] in H. destruct (is_gradient name) eqn:Hg; cbn [fits fst snd].
  { unfold stops_only in H. rewrite forallb_forall in H. exact (H k Hk). }
  destruct d; cbn [fits fst snd].
  { apply andb_true_iff in H. destruct H as [_ H]. rewrite forallb_forall in H. rewrite (H k Hk). cbn [flat_ok orb andb]. reflexivity. }
  apply andb_true_iff in H. destruct H as [_ H]. rewrite forallb_forall in H. rewrite (H k Hk).
  rewrite (FK (String.eqb name "defs") "title"%string N1 H1), (FK (String.eqb name "defs") "desc"%string N2 H2) by discriminate. reflexivity.
Qed.
Lemma quiet_chars s (c : cursor) : c_inTitle c = false -> c_inDesc c = false -> charData s c = (c, Ret tt).
Proof. intros H1 H2. unfold charData, bind, gets, ret. rewrite H1, H2. reflexivity. Qed.
Lemma run_app fuel l1 l2 (c : cursor) : mapM (stepToken fuel) (l1 ++ l2) c = (mapM (stepToken fuel) l1 ;; mapM (stepToken fuel) l2) c.
Proof. rewrite mapM_app. reflexivity. Qed.
Lemma spoken_run fuel u ns ns' : spoken ns ns' -> forall d g mn T Dd (c : cursor), forallb (fits u d g) ns = true -> st u d g false false mn T Dd None c ->
  mapM (stepToken fuel) (flat_map tokens ns) c = mapM (stepToken fuel) (flat_map tokens ns') c.
Proof.
  induction 1 as [|s l l' H IH|l l' H IH|n l l' H IH|name attrs kids kids' l l' N1 N2 Hk IHk H IH]; intros d g mn T Dd c Hf Hc; cbn [flat_map forallb] in *.
  - reflexivity.
  - apply andb_true_iff in Hf. destruct Hf as [_ Hf]. rewrite run_app. cbn [tokens mapM stepToken]. unfold bind at 1 2.
    rewrite quiet_chars by apply Hc. apply (IH d g mn T Dd c Hf Hc).
  - apply andb_true_iff in Hf. destruct Hf as [_ Hf]. exact (IH d g mn T Dd c Hf Hc).
  - apply andb_true_iff in Hf. destruct Hf as [Hn Hf]. rewrite !run_app. pose proof (fits_tri fuel u d g mn n T Dd Hn c Hc) as K.
    unfold bind. destruct (mapM (stepToken fuel) (tokens n) c) as [c1 [[]|e| |]]; try reflexivity. destruct K as (T' & D' & K). exact (IH d g mn T' D' c1 Hf K).
  - apply andb_true_iff in Hf. destruct Hf as [Hn Hf]. rewrite !run_app. pose proof (fits_tri fuel u d g mn _ T Dd Hn c Hc) as K.
    assert (Ee : mapM (stepToken fuel) (tokens (Elem name attrs kids)) c = mapM (stepToken fuel) (tokens (Elem name attrs kids')) c).
    { cbn [tokens mapM]. pose proof (start_tri fuel u d g mn name attrs kids T Dd Hn N1 N2 c Hc) as K1. unfold bind at 1 2.
      destruct (stepToken fuel (TStart name attrs) c) as [c1 [[]|e| |]]; try reflexivity. destruct K1 as (mn' & T' & D' & K1).
      rewrite !run_app. unfold bind. rewrite (IHk _ _ _ _ _ c1 (fits_kids u d g name attrs kids Hn N1 N2) K1). reflexivity. }
    unfold bind. rewrite <- Ee. destruct (mapM (stepToken fuel) (tokens (Elem name attrs kids)) c) as [c1 [[]|e| |]]; try reflexivity.
    destruct K as (T' & D' & K). exact (IH d g mn T' D' c1 Hf K).
Qed.
Lemma spoken_seen ns ns' : spoken ns ns' -> seenTag (flat_map tokens ns) = seenTag (flat_map tokens ns').
Proof.
  unfold seenTag. induction 1; cbn [flat_map]; rewrite ?existsb_app; cbn [tokens existsb orb]; try congruence.
Qed.
Theorem text_ignored fuel mode u ns ns' tm : tidy_doc u ns = true -> spoken ns ns' ->
  parse (E := E) fuel mode (flat_map tokens ns) tm = parse fuel mode (flat_map tokens ns') tm.
Proof.
  intros Ht Hs. apply equiv_parse; [apply spoken_seen, Hs|]. left. apply (spoken_run fuel u ns ns' Hs false false true [] []); [|apply st0].
  exact Ht.
Qed.
End Noise.

(** * ProofsMasks: the mask lists of styles, and what later elements can change (C32, C39) *)
From Coq Require Import Lia.
From Verif Require Export Triples SpecSafe ProofsStyle ProofsDoc.
Local Open Scope go_scope.

Section Heap.
Context {E : Env}.
Notation cursor := (cursor E).
Notation heap := (list (list string)).
Notation hp c := (sv_mheap (c_svg c)).
Notation ml st := (st_masks st).

Definition valid (h : heap) (s : sslice) : Prop :=
  sl_arr s < length h /\ length (nth (sl_arr s) h []) = sl_cap s /\ sl_len s <= sl_cap s.
(** the arrays of [h] are in [h'], with the same first [n] entries *)
Definition hle (n : nat) (h h' : heap) : Prop :=
  length h <= length h' /\ forall a, a < length h ->
    length (nth a h' []) = length (nth a h []) /\ firstn n (nth a h' []) = firstn n (nth a h []).
Lemma hle_refl n h : hle n h h. Proof. split; auto. Qed.
Lemma hle_trans n a b c : hle n a b -> hle n b c -> hle n a c.
Proof.
  intros [H1 H2] [H3 H4]. split; [lia|]. intros i Hi. destruct (H2 i Hi) as [K1 K2]. destruct (H4 i) as [K3 K4]; [lia|].
  split; congruence.
Qed.
Lemma firstn_less {A} m n (a b : list A) : m <= n -> firstn n a = firstn n b -> firstn m a = firstn m b.
Proof. intros Hmn H. rewrite <- (Nat.min_l m n Hmn), <- !firstn_firstn. now rewrite H. Qed.
Lemma hle_less m n h h' : m <= n -> hle n h h' -> hle m h h'.
Proof.
  intros Hmn [H1 H2]. split; [exact H1|]. intros a Ha. destruct (H2 a Ha) as [K1 K2]. split; [exact K1|]. eapply firstn_less; eassumption.
Qed.
Lemma valid_hle n h h' s : hle n h h' -> valid h s -> valid h' s.
Proof. intros [H1 H2] (K1 & K2 & K3). destruct (H2 _ K1) as [K4 _]. split; [lia|]. split; [congruence|assumption]. Qed.
Lemma read_hle n h h' s : hle n h h' -> valid h s -> sl_len s <= n -> slice_read h' s = slice_read h s.
Proof. intros [H1 H2] (K1 & K2 & K3) Hn. destruct (H2 _ K1) as [_ K4]. unfold slice_read. eapply firstn_less; eassumption. Qed.

Lemma set_nth_length {A} (l : list A) : forall i a, length (set_nth l i a) = length l.
Proof. induction l as [|b l IH]; intros i a; [reflexivity|]. destruct i; cbn; auto. Qed.
Lemma nth_set_same {A} (d : A) (l : list A) : forall i a, i < length l -> nth i (set_nth l i a) d = a.
Proof. induction l as [|b l IH]; intros i a Hi; cbn in Hi; [lia|]. destruct i; cbn; [reflexivity|]. apply IH. lia. Qed.
Lemma nth_set_other {A} (d : A) (l : list A) : forall i j a, i <> j -> nth j (set_nth l i a) d = nth j l d.
Proof. induction l as [|b l IH]; intros i j a Hi; [destruct j; reflexivity|]. destruct i, j; cbn; auto; lia. Qed.
Lemma firstn_set {A} (l : list A) : forall i n a, n <= i -> firstn n (set_nth l i a) = firstn n l.
Proof.
  induction l as [|b l IH]; intros i n a Hn; [destruct n; reflexivity|]. destruct n; [reflexivity|]. destruct i; [lia|]. cbn. rewrite IH by lia. reflexivity.
Qed.
Lemma firstn_set_end {A} (l : list A) : forall i a, i < length l -> firstn (S i) (set_nth l i a) = firstn i l ++ [a].
Proof. induction l as [|b l IH]; intros i a Hi; cbn in Hi; [lia|]. destruct i; cbn; [destruct l; reflexivity|]. rewrite <- IH by lia. reflexivity. Qed.

(** ** append *)
Lemma append_ok s id (c : cursor) : valid (hp c) s ->
  exists h' s', appendStr s id c = (c_set_svg (sv_set_mheap h' (c_svg c)) c, Ret s')
    /\ valid h' s' /\ slice_read h' s' = slice_read (hp c) s ++ [id] /\ sl_len s' = S (sl_len s)
    /\ (forall n, n <= sl_len s \/ sl_len s = sl_cap s -> hle n (hp c) h')
    /\ (sl_len s = sl_cap s -> sl_cap s' = Nat.max (S (sl_len s)) (growcap E (sl_cap s))).
Proof.
  intros (H1 & H2 & H3). unfold appendStr. destruct (Nat.ltb_spec (sl_len s) (sl_cap s)) as [Hlt|Hge].
  - eexists _, _. split; [reflexivity|]. rewrite Nat.add_1_r.
    assert (Hnth : nth (sl_arr s) (set_nth (hp c) (sl_arr s) (set_nth (nth (sl_arr s) (hp c) []) (sl_len s) id)) [] = set_nth (nth (sl_arr s) (hp c) []) (sl_len s) id)
      by (apply nth_set_same; exact H1).
    split; [|split; [|split; [reflexivity|split]]].
    + unfold valid. cbn [sl_arr sl_len sl_cap]. rewrite set_nth_length, Hnth, set_nth_length. lia.
    + unfold slice_read. cbn [sl_arr sl_len sl_cap]. rewrite Hnth. apply firstn_set_end. lia.
    + intros n Hn. assert (Hn' : n <= sl_len s) by lia. split; [now rewrite set_nth_length|]. intros a Ha.
      destruct (Nat.eq_dec (sl_arr s) a) as [<-|Hne].
      * rewrite Hnth, set_nth_length. split; [reflexivity|]. apply firstn_set, Hn'.
      * rewrite nth_set_other by assumption. auto.
    + intros Heq. lia.
  - assert (Heq : sl_len s = sl_cap s) by lia. eexists _, _. split; [reflexivity|]. rewrite !Nat.add_1_r.
    assert (Hlen : length (slice_read (hp c) s) = sl_len s) by (unfold slice_read; rewrite firstn_length; lia).
    split; [|split; [|split; [reflexivity|split]]].
    + unfold valid. cbn [sl_arr sl_len sl_cap]. rewrite app_length, app_nth2, Nat.sub_diag by lia. cbn [length nth]. rewrite app_length, Hlen. cbn [length]. rewrite repeat_length. lia.
    + unfold slice_read at 1. cbn [sl_arr sl_len sl_cap]. rewrite app_nth2, Nat.sub_diag by lia. cbn [nth].
      rewrite firstn_app, Hlen. rewrite firstn_all2 by lia. replace (S (sl_len s) - sl_len s) with 1 by lia. reflexivity.
    + intros n _. split; [rewrite app_length; lia|]. intros a Ha. rewrite app_nth1 by assumption. auto.
    + intros _. reflexivity.
Qed.

(** slices whose extension leaves the first [n] entries of every array alone; those extensions
    inherit this when the capacity grows as [grows] says *)
Definition grows (n : nat) : Prop := forall k, S k < n -> growcap E k <= S k.
Definition safe (n : nat) (s : sslice) : Prop := n <= sl_len s \/ (grows n /\ sl_len s = sl_cap s).
Lemma safe_append n s s' : safe n s -> sl_len s' = S (sl_len s) ->
  (sl_len s = sl_cap s -> sl_cap s' = Nat.max (S (sl_len s)) (growcap E (sl_cap s))) -> safe n s'.
Proof.
  intros [H|[Hg H]] Hl Hc; [left; lia|]. destruct (Nat.le_gt_cases n (S (sl_len s))) as [Hn|Hn]; [left; lia|].
  right. split; [exact Hg|]. rewrite Hc by exact H. rewrite <- H, Hl. specialize (Hg (sl_len s) Hn). lia.
Qed.

(** ** What does not concern masks *)
Definition same_m (c c' : cursor) : Prop :=
  sv_paths (c_svg c') = sv_paths (c_svg c) /\ sv_masks (c_svg c') = sv_masks (c_svg c) /\ c_mask c' = c_mask c
  /\ c_stack c' = c_stack c /\ hp c' = hp c.
Lemma sm_refl c : same_m c c. Proof. unfold same_m. auto. Qed.
Lemma sm_trans a b c : same_m a b -> same_m b c -> same_m a c.
Proof. unfold same_m. intuition congruence. Qed.
Lemma sm_pc p c : same_m c (c_set_pc p c). Proof. unfold same_m. auto. Qed.
Lemma sm_svg v w h c : same_m c (c_set_svg (sv_set_viewBox v (sv_set_width w (sv_set_height h (c_svg c)))) c).
Proof. unfold same_m. auto. Qed.
Lemma sm_title b l c : same_m c (c_set_svg (sv_set_titles l (c_svg c)) (c_set_inTitle b c)). Proof. unfold same_m; auto. Qed.
Lemma sm_desc b l c : same_m c (c_set_svg (sv_set_descs l (c_svg c)) (c_set_inDesc b c)). Proof. unfold same_m; auto. Qed.
Lemma sm_defs b c : same_m c (c_set_inDefs b c). Proof. unfold same_m; auto. Qed.
Lemma sm_def l d c : same_m c (c_set_curDef l (c_set_svg (sv_set_defs d (c_svg c)) c)). Proof. unfold same_m; auto. Qed.
Lemma sm_grad p h b c : same_m c (c_set_grad p (c_set_gheap h (c_set_inGrad b c))). Proof. unfold same_m; auto. Qed.
Lemma sm_grads g c : same_m c (c_set_svg (sv_set_grads g (c_svg c)) c). Proof. unfold same_m; auto. Qed.
Lemma kp_attr_nomask (R : cursor -> cursor -> Prop) (Rr : forall c, R c c) (Rt : forall a b c, R a b -> R b c -> R a c)
  (Rpc : forall p c, R c (c_set_pc p c)) st k v : k <> "mask"%string -> keeps R (readStyleAttr st k v).
Proof.
  intros Hk. unfold readStyleAttr. apply String.eqb_neq in Hk. rewrite Hk.
  repeat first
  [ apply (kp_readGradURL R Rr Rt) | apply (kp_handleError R Rr Rt Rpc) | apply (kp_cParseUnit R Rr)
  | apply (kp_parseDashes R Rr Rt) | apply (kp_parseTransform R Rr Rt Rpc)
  | match goal with
    | |- forall _, keeps _ _ => intros ?
    | |- keeps _ (ret _) => apply (keeps_ret R Rr)
    | |- keeps _ (lift _) => apply (keeps_lift R Rr)
    | |- keeps _ (bind _ _) => apply (keeps_bind R Rt)
    | |- keeps _ (if _ then _ else _) => apply (keeps_if R)
    | |- keeps _ (match ?x with _ => _ end) => destruct x
    | |- keeps _ (let _ := _ in _) => cbv zeta
    end ].
Qed.
Lemma attr_mask_part st st' k v (c c' : cursor) : readStyleAttr st k v c = (c', Ret st') -> k <> "mask"%string -> ml st' = ml st.
Proof.
  intros H Hk. apply (readStyleAttr_parts st st' k v c c' MaskList H). intros Hi. apply Hk. unfold parts_named in Hi. cbn [List.find fst snd] in Hi.
  repeat match type of Hi with context [String.eqb k ?s] => destruct (String.eqb_spec k s) as [->|?]; [cbn in Hi; try (exfalso; intuition discriminate); reflexivity|] end.
  destruct Hi.
Qed.
(** pushing a style: [h0] is the memory at the beginning *)
Definition folding (n l : nat) (h0 : heap) (st : style E) (c : cursor) : Prop :=
  hle n h0 (hp c) /\ valid (hp c) (ml st) /\ safe n (ml st) /\ l <= sl_len (ml st).
Definition within (n : nat) (h0 : heap) (c1 : cursor) (o : outcome unit) (c : cursor) : Prop := hle n h0 (hp c).
(** the rest of the state *)
Definition same_rest (c c' : cursor) : Prop :=
  sv_paths (c_svg c') = sv_paths (c_svg c) /\ sv_masks (c_svg c') = sv_masks (c_svg c) /\ c_mask c' = c_mask c /\ c_stack c' = c_stack c.
Lemma sr_refl c : same_rest c c. Proof. unfold same_rest. auto. Qed.
Lemma sr_trans a b c : same_rest a b -> same_rest b c -> same_rest a c.
Proof. unfold same_rest. intuition congruence. Qed.
Lemma sr_pc p c : same_rest c (c_set_pc p c). Proof. unfold same_rest. auto. Qed.
Lemma sr_heap h c : same_rest c (c_set_svg (sv_set_mheap h (c_svg c)) c). Proof. unfold same_rest. auto. Qed.
Lemma tri_attr n l h0 st k v : tri (folding n l h0 st) (readStyleAttr st k v) (folding n l h0) (fun _ c => hle n h0 (hp c)).
Proof.
  destruct (string_dec k "mask") as [->|Hk].
  - unfold readStyleAttr.
    change (tri (folding n l h0 st) (id <- lift (parseSelector v) ;; sl <- appendStr (ml st) id ;; ret (s_set_masks sl st)) (folding n l h0) (fun _ c => hle n h0 (hp c))).
    intros c (H1 & H2 & H3 & H4). unfold bind at 1, lift. destruct (parseSelector v) as [id|e| |]; try exact H1.
    destruct (append_ok (ml st) id c H2) as (h' & s' & Ha & V & _ & L & Hh & Hc). unfold bind. rewrite Ha. cbn.
    split; [eapply hle_trans; [exact H1|apply Hh]; destruct H3 as [|[_ ?]]; auto|]. split; [exact V|]. split; [eapply safe_append; eassumption|cbn; lia].
  - intros c H. pose proof (kp_attr_nomask same_m sm_refl sm_trans sm_pc st k v Hk c) as K.
    destruct (readStyleAttr st k v c) as [c' [st'|e| |]] eqn:Hr; cbn in K; destruct K as (_ & _ & _ & _ & K); destruct H as (H1 & H2 & H3 & H4);
      try (rewrite K; exact H1).
    unfold folding. rewrite K, (attr_mask_part _ _ _ _ _ _ Hr Hk). auto.
Qed.
Lemma tri_pair n l h0 st p : tri (folding n l h0 st) (stylePair st p) (folding n l h0) (fun _ c => hle n h0 (hp c)).
Proof.
  unfold stylePair. destruct (split1 ":" p) as [|k [|v r]]; try (apply tri_ret; auto). apply tri_attr.
Qed.
Lemma push_ok n attrs (c : cursor) st0 rest : c_stack c = st0 :: rest -> valid (hp c) (ml st0) -> safe n (ml st0) ->
  hle n (hp c) (hp (fst (pushStyle attrs c)))
  /\ (sv_paths (c_svg (fst (pushStyle attrs c))) = sv_paths (c_svg c) /\ sv_masks (c_svg (fst (pushStyle attrs c))) = sv_masks (c_svg c) /\ c_mask (fst (pushStyle attrs c)) = c_mask c)
  /\ match snd (pushStyle attrs c) with
     | Ret _ => exists st, c_stack (fst (pushStyle attrs c)) = st :: c_stack c /\ valid (hp (fst (pushStyle attrs c))) (ml st) /\ safe n (ml st) /\ sl_len (ml st0) <= sl_len (ml st)
     | _ => c_stack (fst (pushStyle attrs c)) = c_stack c
     end.
Proof.
  intros Hc Hv Hs.
  assert (Hp : pushStyle attrs c = (st <- foldM stylePair st0 (stylePairs attrs) ;; modify (fun c => c_set_stack (st :: c_stack c) c)) c)
    by (unfold pushStyle; unfold bind at 1; unfold topStyle; rewrite Hc; reflexivity).
  rewrite Hp.
  pose proof (tri_foldM (folding n (sl_len (ml st0)) (hp c)) stylePair (stylePairs (E := E) attrs) (fun _ c' => hle n (hp c) (hp c')) st0
    (fun st p _ => tri_pair n _ _ st p) c) as K.
  assert (F0 : folding n (sl_len (ml st0)) (hp c) st0 c) by (split; [apply hle_refl|auto]). specialize (K F0).
  pose proof (kp_foldM same_rest sr_refl sr_trans stylePair (stylePairs (E := E) attrs) st0 (kp_stylePair same_rest sr_refl sr_trans sr_pc sr_heap) c) as R.
  unfold bind. destruct (foldM stylePair st0 (stylePairs attrs) c) as [c1 [st|e| |]]; cbn in R |- *; destruct R as (R1 & R2 & R3 & R4); auto.
  destruct K as (K1 & K2 & K3 & K4). split; [exact K1|]. split; [auto|]. exists st. rewrite R4. auto.
Qed.

(** ** Everything stored stays as it is, up to [n] masks *)
Section Final.
Context (n : nat) (Hgrow : grows n) (h0 : heap) (p0 : list (svgPath E)).
Definition fit (h : heap) (st : style E) : Prop := valid h (ml st) /\ safe n (ml st).
Definition fits (c : cursor) (p : svgPath E) : Prop := valid (hp c) (ml (sp_style p)).
Record later (c : cursor) : Prop := mkLater {
  l_heap : hle n h0 (hp c);
  l_paths : exists l, sv_paths (c_svg c) = p0 ++ l;
  l_stack : Forall (fit (hp c)) (c_stack c);
  l_valid : Forall (fits c) (sv_paths (c_svg c));
  l_masks : Forall (fun e => Forall (fits c) (mk_paths (snd e))) (sv_masks (c_svg c));
  l_mask : forall m, c_mask c = Some m -> Forall (fits c) (mk_paths m) }.
Notation inv m := (tri later m (fun _ => later) (fun _ => later)).
Lemma fit_hle h h' st : hle n h h' -> fit h st -> fit h' st.
Proof. intros H [H1 H2]. split; [eapply valid_hle; eassumption|exact H2]. Qed.
Lemma fits_hle c c' p : hle n (hp c) (hp c') -> fits c p -> fits c' p.
Proof. intros H H1. eapply valid_hle; eassumption. Qed.
Lemma later_hle c c' : hle n (hp c) (hp c') -> sv_paths (c_svg c') = sv_paths (c_svg c) -> sv_masks (c_svg c') = sv_masks (c_svg c) ->
  c_mask c' = c_mask c -> Forall (fit (hp c')) (c_stack c') -> later c -> later c'.
Proof.
  intros H H1 H2 H3 H4 [L1 L2 L3 L4 L5 L6]. constructor; rewrite ?H1, ?H2; auto.
  - eapply hle_trans; eassumption.
  - eapply Forall_impl; [|exact L4]. intros p. apply fits_hle, H.
  - eapply Forall_impl; [|exact L5]. intros e. apply Forall_impl. intros p. apply fits_hle, H.
  - rewrite H3. intros m Hm. eapply Forall_impl; [|exact (L6 m Hm)]. intros p. apply fits_hle, H.
Qed.
Lemma sm_later c c' : same_m c c' -> later c -> later c'.
Proof.
  intros (H1 & H2 & H3 & H4 & H5) L. apply (later_hle c c'); auto; [rewrite H5; apply hle_refl|]. rewrite H4, H5. apply L.
Qed.
Lemma sm_inv {A} (m : @C E A) : keeps same_m m -> inv m.
Proof. intros H. exact (tri_keeps same_m m later H sm_later). Qed.
Lemma inv_push attrs : inv (pushStyle attrs).
Proof.
  intros c Hc. pose proof Hc as [L1 L2 L3 L4 L5 L6]. destruct (c_stack c) as [|st0 rest] eqn:Hs.
  { unfold pushStyle, bind, topStyle. rewrite Hs. exact Hc. }
  inversion L3 as [|? ? [F1 F2] F3]; subst.
  destruct (push_ok n attrs c st0 rest Hs F1 F2) as (P1 & (P2 & P3 & P4) & P5).
  destruct (pushStyle attrs c) as [c' [u|e| |]]; cbn [fst snd] in *.
  2-4: apply (later_hle c c'); auto; rewrite P5, Hs; eapply Forall_impl; [|exact L3]; intros st; apply fit_hle, P1.
  destruct P5 as (st & K1 & K2 & K3 & _). apply (later_hle c c'); auto. rewrite K1. constructor; [split; assumption|]. rewrite Hs. eapply Forall_impl; [|exact L3]. intros s. apply fit_hle, P1.
Qed.
Lemma inv_pop : inv popStyle.
Proof.
  intros c Hc. unfold popStyle. destruct (c_stack c) as [|st l] eqn:Hs; [exact Hc|]. pose proof Hc as [L1 L2 L3 L4 L5 L6]. rewrite Hs in L3. inversion L3; subst.
  apply (later_hle c); auto. apply hle_refl.
Qed.
Lemma inv_mask attrs : inv (maskF attrs).
Proof.
  unfold maskF. eapply tri_bind. { apply sm_inv, (kp_foldM _ sm_refl sm_trans). intros. apply (kp_maskAttr _ sm_refl sm_trans). }
  intros [[[[id x] y] w] h]. apply tri_modify. intros c [L1 L2 L3 L4 L5 L6]. constructor; auto. cbn. intros m Hm. injection Hm as <-. constructor.
Qed.
Lemma inv_drawF fuel name df attrs : drawFunc fuel name = Some df -> inv (df attrs).
Proof.
  unfold drawFunc. intros H.
  repeat match type of H with (if ?b then _ else _) = _ => destruct b; [injection H as <-|] end; try discriminate.
  - apply sm_inv, (kp_svgF _ sm_refl sm_trans sm_pc sm_svg). - apply tri_ret; auto. - apply sm_inv, (kp_lineF _ sm_refl sm_trans sm_pc).
  - apply sm_inv, (kp_stopF _ sm_refl sm_trans sm_grad).
  - apply sm_inv, (kp_rectF _ sm_refl sm_trans sm_pc). - apply sm_inv, (kp_circleF _ sm_refl sm_trans sm_pc).
  - apply sm_inv, (kp_circleF _ sm_refl sm_trans sm_pc). - apply sm_inv, (kp_polylineF _ sm_refl sm_trans sm_pc).
  - apply sm_inv, (kp_polygonF _ sm_refl sm_trans sm_pc). - apply sm_inv, (kp_pathF _ sm_refl sm_trans sm_pc).
  - apply sm_inv, (kp_descF _ sm_desc). - apply sm_inv, (kp_defsF _ sm_defs). - apply sm_inv, (kp_titleF _ sm_title).
  - apply sm_inv, (kp_linearGradientF _ sm_refl sm_trans sm_pc sm_grad sm_grads). - apply sm_inv, (kp_radialGradientF _ sm_refl sm_trans sm_pc sm_grad sm_grads).
  - apply inv_mask.
Qed.
Lemma inv_loop draw defs : (forall t df attrs, draw t = Some df -> inv (df attrs)) -> inv (useLoop draw defs).
Proof.
  intros Hd. induction defs as [|d defs IH]; cbn [useLoop]; [apply tri_ret; auto|].
  apply tri_if. { eapply tri_bind; [apply inv_pop|]. intros _'. exact IH. }
  eapply tri_bind; [apply inv_push|]. intros _'. destruct (draw (d_tag d)) as [df|] eqn:Hdr.
  - eapply tri_bind; [eapply Hd, Hdr|]. intros _''. eapply tri_bind; [|intros; exact IH]. apply tri_if; [apply inv_pop|apply tri_ret; auto].
  - apply sm_inv, (kp_handleError _ sm_refl sm_trans sm_pc).
Qed.
Lemma inv_use fuel : forall attrs, inv (useF fuel attrs).
Proof.
  induction fuel as [|fuel IH]; intros attrs; cbn [useF]. { apply tri_nofuel. auto. }
  eapply tri_bind. { apply sm_inv, (kp_foldM _ sm_refl sm_trans). intros. apply (kp_useAttr _ sm_refl sm_trans). }
  intros [[href x] y]. eapply tri_bind. { apply sm_inv, keeps_modify. intros. apply sm_pc. } intros _'.
  eapply (tri_deferred _ _ _ (fun _ => later) _ (fun _ => later)).
  - apply tri_if; [apply tri_raise; auto|]. apply tri_if; [apply tri_raise; auto|].
    eapply tri_bind; [apply sm_inv, (keeps_lift _ sm_refl)|]. intros id. eapply tri_bind; [apply sm_inv, (keeps_gets _ sm_refl)|]. intros defs.
    destruct (mget id defs); [|apply tri_raise; auto].
    apply inv_loop. intros t df at' Hdf. destruct (String.eqb t "use"); [injection Hdf as <-; apply IH|]. eapply inv_drawF, Hdf.
  - intros _'' s. apply sm_later, sm_pc.
  - intros _'' s. apply sm_later, sm_pc.
Qed.
Lemma inv_draws fuel name df attrs : drawFuncs fuel name = Some df -> inv (df attrs).
Proof.
  unfold drawFuncs. destruct (String.eqb name "use"); intros H; [injection H as <-; apply inv_use|eapply inv_drawF, H].
Qed.
Lemma inv_collectPath : inv collectPath.
Proof.
  intros c Hc. unfold collectPath, bind, gets. destruct (pc_path (c_pc c)) as [|o p] eqn:Hp; [exact Hc|].
  pose proof Hc as [L1 L2 L3 L4 L5 L6]. unfold topStyle, ret, modify, onSvg, onCPath, liftP, onPath.
  destruct (c_inMask c).
  - destruct (c_mask c) as [m|] eqn:Hm.
    + destruct (c_stack c) as [|st l] eqn:Hs; [exact Hc|]. inversion L3 as [|? ? F1 F2]; subst. constructor; cbn; auto; [rewrite Hs; auto|].
      intros m' Hm'. injection Hm' as <-. cbn. apply Forall_app. split; [apply L6; reflexivity|]. constructor; [apply F1|constructor].
    + constructor; cbn; auto. rewrite Hm. discriminate.
  - destruct (c_stack c) as [|st l] eqn:Hs; [exact Hc|]. inversion L3 as [|? ? F1 F2]; subst. constructor; cbn; auto.
    + destruct L2 as [l2 ->]. rewrite <- app_assoc. eauto.
    + rewrite Hs. auto.
    + apply Forall_app. split; [exact L4|]. constructor; [apply F1|constructor].
Qed.
Lemma inv_startElement fuel name attrs : inv (readStartElement fuel name attrs).
Proof.
  unfold readStartElement. eapply tri_bind; [apply sm_inv, (keeps_gets _ sm_refl)|]. intros c0. cbv zeta. apply tri_if.
  - eapply (tri_bind _ _ _ (fun _ => later)); [apply tri_if; [|apply tri_ret; auto]; apply sm_inv, (kp_flushDefs _ sm_refl sm_def)|]. intros _'. apply sm_inv, (kp_addDef _ sm_def).
  - destruct (drawFuncs fuel name) as [df|] eqn:Hdf; [|apply sm_inv, (kp_handleError _ sm_refl sm_trans sm_pc)].
    eapply (tri_bind _ _ _ (fun _ => later)). { eapply tri_post; [apply tri_attempt; eapply inv_draws, Hdf|]. intros [e|] s Hs; exact Hs. }
    intros err. eapply tri_bind; [apply inv_collectPath|]. intros _'. destruct err; [apply tri_raise|apply tri_ret]; auto.
Qed.
Lemma inv_end name : inv (endRest name).
Proof.
  unfold endRest. repeat apply tri_if; try (apply tri_ret; auto).
  - eapply tri_bind; [apply sm_inv, (keeps_gets _ sm_refl)|]. intros b. apply tri_if; [apply sm_inv, (kp_addDef _ sm_def)|apply tri_ret; auto].
  - intros c [L1 L2 L3 L4 L5 L6]. cbv [bind gets ret modify onSvg]. destruct (c_mask c) as [m|] eqn:Hm.
    + constructor; cbn; auto; [|discriminate]. unfold mput. constructor; [apply L6; reflexivity|].
      rewrite Forall_forall in L5 |- *. intros e He. apply filter_In in He. apply L5, He.
    + constructor; cbn; auto. rewrite Hm. discriminate.
  - apply sm_inv, keeps_modify. intros; unfold same_m; auto.
  - apply sm_inv, keeps_modify. intros; unfold same_m; auto.
  - eapply tri_bind; [apply sm_inv, (kp_flushDefs _ sm_refl sm_def)|]. intros _'. apply sm_inv, keeps_modify. intros; unfold same_m; auto.
  - apply sm_inv, keeps_modify. intros; unfold same_m; auto.
Qed.
Lemma inv_token fuel t : inv (stepToken fuel t).
Proof.
  destruct t as [name attrs|name|s|]; cbn [stepToken].
  - eapply tri_bind; [apply inv_push|]. intros _'. apply inv_startElement.
  - rewrite endElement_rest. eapply tri_bind; [apply inv_pop|]. intros _'. apply inv_end.
  - apply sm_inv, (kp_charData _ sm_refl sm_trans sm_title sm_desc).
  - apply tri_ret; auto.
Qed.
Lemma inv_tokens fuel toks : inv (mapM (stepToken fuel) toks).
Proof. apply tri_mapM. intros t _. apply inv_token. Qed.
End Final.

(** ** From a state to the parsed document *)
Lemma parse_state fuel mode toks tm (s : svg E) e log : parse fuel mode toks tm = PSvg s e log ->
  s = c_svg (fst (mapM (stepToken fuel) toks (cursor0 mode)))
  /\ (snd (mapM (stepToken fuel) toks (cursor0 (E := E) mode)) = Ret tt \/ exists x, snd (mapM (stepToken fuel) toks (cursor0 (E := E) mode)) = Err x).
Proof.
  unfold parse. destruct (mapM (stepToken fuel) toks (cursor0 mode)) as [c [[]|x| |]]; try discriminate; cbn.
  - destruct tm; [destruct (seenTag toks)|]; intros H; try discriminate; injection H as <- <- <-; auto.
  - intros H; injection H as <- <- <-; eauto.
Qed.
Lemma later_start n mode : grows n -> later n (hp (cursor0 (E := E) mode)) [] (cursor0 mode).
Proof.
  intros Hg. constructor; cbn; [apply hle_refl|now exists []| |constructor|constructor|discriminate].
  - constructor; [|constructor]. split; [unfold valid; cbn; lia|]. right. split; [exact Hg|reflexivity].
Qed.
Lemma later_of fuel n h0 p0 toks c : later n h0 p0 c -> later n h0 p0 (fst (mapM (stepToken fuel) toks c)).
Proof.
  intros H. pose proof (inv_tokens n h0 p0 fuel toks c H) as K. destruct (mapM (stepToken fuel) toks c) as [c' [a|e| |]]; exact K.
Qed.
Lemma later_now n h0 p0 (c : cursor) : later n h0 p0 c -> later n (hp c) (sv_paths (c_svg c)) c.
Proof. intros [L1 L2 L3 L4 L5 L6]. constructor; auto; [apply hle_refl|]. exists []. now rewrite app_nil_r. Qed.
Lemma mget_in {A} (Q : A -> Prop) k a (m : smap A) : Forall (fun e => Q (snd e)) m -> mget k m = Some a -> Q a.
Proof.
  induction m as [|[k' x] m IH]; intros H; cbn; [discriminate|]. inversion H; subst. destruct (String.eqb k k'); [intros Heq; injection Heq as <-; assumption|auto].
Qed.
Lemma run_app fuel mode toks1 toks2 tm1 tm2 (s1 s2 : svg E) e1 e2 log1 log2 :
  parse fuel mode toks1 tm1 = PSvg s1 e1 log1 -> parse fuel mode (toks1 ++ toks2) tm2 = PSvg s2 e2 log2 ->
  exists c, s1 = c_svg c /\ c = fst (mapM (stepToken fuel) toks1 (cursor0 mode)) /\ (s2 = c_svg c \/ s2 = c_svg (fst (mapM (stepToken fuel) toks2 c))).
Proof.
  intros H1 H2. apply parse_state in H1, H2. destruct H1 as [-> H1], H2 as [-> H2]. eexists. split; [reflexivity|]. split; [reflexivity|].
  rewrite mapM_app. unfold bind. destruct (mapM (stepToken fuel) toks1 (cursor0 mode)) as [c [[]|e| |]]; cbn; auto.
Qed.
(** what is stored is final *)
Theorem stored_final fuel mode n toks1 toks2 tm1 tm2 (s1 s2 : svg E) e1 e2 log1 log2 :
  (forall k, S k < n -> growcap E k <= S k) ->
  parse fuel mode toks1 tm1 = PSvg s1 e1 log1 -> parse fuel mode (toks1 ++ toks2) tm2 = PSvg s2 e2 log2 ->
  (exists l, sv_paths s2 = sv_paths s1 ++ l)
  /\ forall p, has_path s1 p -> sl_len (st_masks (sp_style p)) <= n -> path_masks s2 p = path_masks s1 p.
Proof.
  intros Hg H1 H2. destruct (run_app _ _ _ _ _ _ _ _ _ _ _ _ H1 H2) as (c & -> & Hc & [->| ->]).
  { split; [exists []; now rewrite app_nil_r|auto]. }
  assert (L : later n (hp c) (sv_paths (c_svg c)) c) by (subst c; exact (later_now _ _ _ _ (later_of _ _ _ _ _ _ (later_start n mode Hg)))).
  pose proof (later_of fuel n _ _ toks2 c L) as K. split; [apply K|]. intros p Hp Hn.
  apply (read_hle n); [apply K| |exact Hn].
  destruct Hp as [Hp|(id & m & Hm & Hp)].
  - pose proof (l_valid _ _ _ _ L) as V. rewrite Forall_forall in V. apply V, Hp.
  - pose proof (l_masks _ _ _ _ L) as V. apply (mget_in (fun m => Forall (fits c) (mk_paths m)) id m) in V; [|exact Hm].
    rewrite Forall_forall in V. apply V, Hp.
Qed.
(** and the masks themselves, until a mask is closed *)
Definition same_masks (c c' : cursor) : Prop := sv_masks (c_svg c') = sv_masks (c_svg c).
Lemma masks_token fuel t : t <> TEnd "mask"%string -> keeps same_masks (stepToken fuel t).
Proof.
  intros Ht. destruct t as [name attrs|name|s|]; cbn [stepToken].
  - apply keeps_bind; [unfold same_masks; congruence|apply kp_pushStyle; try reflexivity; unfold same_masks; congruence|].
    intros _'. apply kp_readStartElement; try (unfold same_masks; congruence); try reflexivity.
    intros df Hdf. eapply kp_drawFuncs; try eassumption; try (unfold same_masks; congruence); reflexivity.
  - rewrite endElement_rest. apply keeps_bind; [unfold same_masks; congruence|apply kp_popStyle; unfold same_masks; try reflexivity; congruence|].
    intros _'. unfold endRest. destruct (String.eqb_spec name "mask") as [->|Hn]; [congruence|].
    intros c. unfold same_masks. destruct (String.eqb name "g"); [cbv [bind gets]; destruct (c_inDefs c); reflexivity|].
    destruct (String.eqb name "title"); [reflexivity|]. destruct (String.eqb name "desc"); [reflexivity|].
    destruct (String.eqb name "defs"); [cbv [bind flushDefs modify]; destruct (c_curDef c); reflexivity|].
    destruct (String.eqb name "radialGradient" || String.eqb name "linearGradient"); reflexivity.
  - apply kp_charData; try reflexivity; unfold same_masks; congruence.
  - apply keeps_ret. reflexivity.
Qed.
Theorem masks_final fuel mode toks1 toks2 tm1 tm2 (s1 s2 : svg E) e1 e2 log1 log2 :
  ~ List.In (TEnd "mask"%string) toks2 ->
  parse fuel mode toks1 tm1 = PSvg s1 e1 log1 -> parse fuel mode (toks1 ++ toks2) tm2 = PSvg s2 e2 log2 -> sv_masks s2 = sv_masks s1.
Proof.
  intros Hn H1 H2. destruct (run_app _ _ _ _ _ _ _ _ _ _ _ _ H1 H2) as (c & -> & Hc & [->| ->]); [reflexivity|].
  assert (K : keeps same_masks (mapM (stepToken (E := E) fuel) toks2)).
  { clear -Hn. induction toks2 as [|t l IH]; [apply keeps_ret; reflexivity|]. cbn [mapM].
    apply keeps_bind; [unfold same_masks; congruence|apply masks_token; intros ->; apply Hn; now left|]. intros _'. apply IH. intros H. apply Hn. now right. }
  apply K.
Qed.

(** ** Masks named by the open elements *)
Lemma index_close id r : lacks ")" id = true -> String.index 0 ")" (id ++ String ")" r) = Some (String.length id).
Proof.
  induction id as [|a id IH]; cbn [lacks all_chars append String.length].
  { intros _. cbn. destruct r; reflexivity. }
  intros H. unfold lacks in H. cbn [all_chars] in H. apply andb_prop in H as [Ha H]. cbn [String.index String.prefix].
  destruct (ascii_dec ")" a) as [<-|Hne]; [discriminate|]. rewrite (IH H). reflexivity.
Qed.
Lemma selector_url id : lacks ")" id = true -> parseSelector ("url(#" ++ id ++ ")") = Ret id.
Proof.
  intros H. unfold parseSelector. change ("url(#" ++ id ++ ")")%string with ("url(" ++ ("#" ++ id) ++ ")")%string.
  rewrite hasPrefix_app. change ((String.length ("url(" ++ ("#" ++ id) ++ ")") =? 0) || String.eqb ("url(" ++ ("#" ++ id) ++ ")") "none") with false.
  cbv iota.
  assert (Hi : String.index 0 ")" ("url(" ++ ("#" ++ id) ++ ")") = Some (5 + String.length id)).
  { pose proof (index_close ("url(#" ++ id) "" ) as K. cbn in K |- *. unfold lacks in K, H. cbn in K. specialize (K H). exact K. }
  rewrite Hi. unfold obind. rewrite (slice_mid "url(" ("#" ++ id) ")") by reflexivity.
  rewrite hasPrefix_app. cbn [negb]. apply (slice_tail "#" id); reflexivity.
Qed.
Lemma readDecl_mask st id (c : cursor) : lacks ")" id = true -> readDecl st ("mask", "url(#" ++ id ++ ")")%string c = (sl <- appendStr (ml st) id ;; ret (s_set_masks sl st)) c.
Proof.
  intros H. unfold readDecl. cbn [fst snd]. unfold readStyleAttr.
  change ((id <- lift (parseSelector ("url(#" ++ id ++ ")")) ;; sl <- appendStr (ml st) id ;; ret (s_set_masks sl st)) c = (sl <- appendStr (ml st) id ;; ret (s_set_masks sl st)) c).
  rewrite (selector_url id H). reflexivity.
Qed.
Lemma decls_read ds ids : masks_named ds ids -> forall st st' (c c' : cursor), valid (hp c) (ml st) ->
  foldM readDecl st ds c = (c', Ret st') -> valid (hp c') (ml st') /\ slice_read (hp c') (ml st') = slice_read (hp c) (ml st) ++ ids.
Proof.
  induction 1 as [|id ds ids Hid _ IH|k v ds ids Hk _ IH]; intros st st' c c' V H; cbn [foldM] in H.
  - injection H as <- <-. split; [exact V|]. now rewrite app_nil_r.
  - apply seqC in H. destruct H as (c1 & st1 & H1 & H). rewrite readDecl_mask in H1 by exact Hid.
    destruct (append_ok (ml st) id c V) as (h' & s' & Ha & V' & Hr & _). unfold bind in H1. rewrite Ha in H1. injection H1 as <- <-.
    destruct (IH _ _ _ _ (V' : valid (hp (c_set_svg (sv_set_mheap h' (c_svg c)) c)) (ml (s_set_masks s' st))) H) as [V2 R2]. split; [exact V2|].
    rewrite R2. cbn [c_svg c_set_svg sv_mheap sv_set_mheap st_masks s_set_masks]. cbn in Hr |- *. rewrite Hr, <- app_assoc. reflexivity.
  - apply seqC in H. destruct H as (c1 & st1 & H1 & H). unfold readDecl in H1. cbn [fst snd] in H1.
    pose proof (kp_attr_nomask same_m sm_refl sm_trans sm_pc st k v Hk c) as K. rewrite H1 in K. cbn in K. destruct K as (_ & _ & _ & _ & K).
    pose proof (attr_mask_part _ _ _ _ _ _ H1 Hk) as M. destruct (IH st1 st' c1 c') as [V2 R2]; [rewrite K, M; exact V|exact H|].
    split; [exact V2|]. rewrite R2, K, M. reflexivity.
Qed.
Lemma push_reads attrs ids (c c' : cursor) st0 rest : attrs_mask attrs ids -> c_stack c = st0 :: rest -> valid (hp c) (ml st0) ->
  pushStyle attrs c = (c', Ret tt) -> exists st, c_stack c' = st :: c_stack c /\ valid (hp c') (ml st) /\ slice_read (hp c') (ml st) = slice_read (hp c) (ml st0) ++ ids
    /\ sv_paths (c_svg c') = sv_paths (c_svg c).
Proof.
  intros (ds & Ha & Hm) Hc V H.
  pose proof (push_ok 0 attrs c st0 rest Hc V (or_introl (Nat.le_0_l _))) as P. rewrite H in P. cbn in P. destruct P as (_ & (P2 & _) & _).
  unfold pushStyle in H. apply seqC in H. destruct H as (c1 & top & H1 & H). unfold topStyle in H1. rewrite Hc in H1. injection H1 as <- <-.
  apply seqC in H. destruct H as (c2 & st & H2 & H). rewrite (attrs_reads attrs ds Ha) in H2.
  destruct (decls_read ds ids Hm _ _ _ _ V H2) as [V2 R2]. injection H as <-. exists st. cbn.
  split; [|auto]. f_equal. rewrite <- (attrs_reads attrs ds Ha) in H2.
  pose proof (kp_foldM same_rest sr_refl sr_trans stylePair (stylePairs (E := E) attrs) st0 (kp_stylePair same_rest sr_refl sr_trans sr_pc sr_heap) c) as R.
  rewrite H2 in R. apply R.
Qed.
(** heap and stack *)
Definition same_hs (c c' : cursor) : Prop := c_stack c' = c_stack c /\ hp c' = hp c.
Lemma start_hs fuel name attrs : name <> "use"%string -> keeps same_hs (readStartElement (E := E) fuel name attrs).
Proof.
  intros Hn. apply kp_readStartElement; try (unfold same_hs; intuition congruence); try (split; reflexivity).
  intros df Hdf. unfold drawFuncs in Hdf. apply String.eqb_neq in Hn. rewrite Hn in Hdf.
  eapply kp_drawFunc; try eassumption; try (unfold same_hs; intuition congruence); split; reflexivity.
Qed.
Lemma rest_hs name : keeps same_hs (endRest (E := E) name).
Proof. apply kp_endRest; try (unfold same_hs; intuition congruence); split; reflexivity. Qed.
Lemma chars_hs s : keeps same_hs (charData (E := E) s).
Proof. apply kp_charData; try (unfold same_hs; intuition congruence); split; reflexivity. Qed.
(** a closed node leaves the stack, and what the styles on it read *)
Definition closed_ok fuel (toks : list token) : Prop := forall (c c' : cursor) st rest, c_stack c = st :: rest -> valid (hp c) (ml st) ->
  mapM (stepToken fuel) toks c = (c', Ret tt) -> c_stack c' = c_stack c /\ hle (sl_len (ml st)) (hp c) (hp c').
Lemma closed_app fuel a b : closed_ok fuel a -> closed_ok fuel b -> closed_ok fuel (a ++ b).
Proof.
  intros Ha Hb c c' st rest Hs V H. rewrite mapM_app in H. apply seqC in H. destruct H as (c1 & [] & H1 & H2).
  destruct (Ha c c1 st rest Hs V H1) as [S1 L1]. destruct (Hb c1 c' st rest) as [S2 L2]; [congruence|eapply valid_hle; eassumption|exact H2|].
  split; [congruence|]. eapply hle_trans; eassumption.
Qed.
Lemma closed_nil fuel : closed_ok fuel [].
Proof. intros c c' st rest Hs V H. injection H as <-. split; [reflexivity|apply hle_refl]. Qed.
Lemma closed_flat fuel ns : Forall (fun n => mentions "use" n = false -> closed_ok fuel (tokens n)) ns -> existsb (mentions "use") ns = false ->
  closed_ok fuel (flat_map tokens ns).
Proof.
  induction 1 as [|n ns Hn _ IH]; intros Hu; [apply closed_nil|]. cbn [existsb] in Hu. apply Bool.orb_false_iff in Hu as [Hu1 Hu2].
  cbn [flat_map]. apply closed_app; auto.
Qed.
Lemma hs_step c c' : same_hs c c' -> forall n, hle n (hp c) (hp c'). Proof. intros [_ ->] n. apply hle_refl. Qed.
Lemma closed_node fuel n : mentions "use" n = false -> closed_ok fuel (tokens n).
Proof.
  revert n. apply (node_ind' (fun n => mentions "use" n = false -> closed_ok fuel (tokens n))).
  - intros name attrs kids IH Hu c c' st rest Hs V H. cbn [mentions] in Hu. apply Bool.orb_false_iff in Hu. destruct Hu as [Hu1 Hu2].
    apply String.eqb_neq in Hu1. cbn [tokens mapM stepToken] in H. apply seqC in H. destruct H as (c1 & [] & H1 & H).
    apply seqC in H1. destruct H1 as (c0 & [] & H0 & H1).
    destruct (push_ok (sl_len (ml st)) attrs c st rest Hs V (or_introl (le_n _))) as (P1 & _ & P2). rewrite H0 in P1, P2. cbn [fst snd] in P1, P2.
    destruct P2 as (st1 & S1 & V1 & _ & L1).
    pose proof (start_hs fuel name attrs Hu1 c0) as K. rewrite H1 in K. destruct K as [K1 K2]. cbn [fst] in K1, K2.
    rewrite mapM_app in H. apply seqC in H. destruct H as (c2 & [] & H2 & H).
    destruct (closed_flat fuel kids IH Hu2 c1 c2 st1 (c_stack c)) as [S2 L2]; [congruence|rewrite K2; exact V1|exact H2|].
    cbn [mapM stepToken] in H. apply seqC in H. destruct H as (c4 & [] & H4 & H). injection H as <-.
    rewrite endElement_rest in H4. apply seqC in H4. destruct H4 as (c5 & [] & H5 & H4).
    unfold popStyle in H5. rewrite S2, K1, S1 in H5. injection H5 as <-.
    pose proof (rest_hs name (c_set_stack (c_stack c) c2)) as K3. rewrite H4 in K3. destruct K3 as [K3 K4]. cbn in K3, K4.
    split; [congruence|]. rewrite K4. eapply hle_trans; [exact P1|]. rewrite <- K2. eapply hle_less; eassumption.
  - intros s _ c c' st rest Hs V H. cbn [tokens mapM stepToken] in H. apply seqC in H. destruct H as (c1 & [] & H1 & H). injection H as <-.
    pose proof (chars_hs s c) as K. rewrite H1 in K. split; [apply K|apply (hs_step _ _ K)].
  - intros _ c c' st rest Hs V H. injection H as <-. split; [reflexivity|apply hle_refl].
Qed.
Lemma mentions_start t n : no_start t (tokens n) -> mentions t n = false.
Proof.
  revert n. apply (node_ind' (fun n => no_start t (tokens n) -> mentions t n = false)); try reflexivity.
  intros name attrs kids IH H. cbn [mentions]. apply Bool.orb_false_iff. split.
  - apply String.eqb_neq. intros ->. apply (H attrs). now left.
  - rewrite <- Bool.not_true_iff_false. intros Hx. apply existsb_exists in Hx. destruct Hx as (k & Hk & Hx).
    rewrite Forall_forall in IH. rewrite (IH k Hk) in Hx; [discriminate|]. intros at' Hi. apply (H at'). cbn [tokens]. right. apply in_or_app. left.
    apply in_flat_map. eauto.
Qed.
Lemma no_start_app t a b : no_start t (a ++ b) -> no_start t a /\ no_start t b.
Proof. intros H. split; intros at' Hi; apply (H at'), in_or_app; auto. Qed.
Lemma chain_masks fuel mode pre anc : open_at pre anc -> no_start "use" pre -> forall idss, Forall2 (fun a ids => attrs_mask (snd a) ids) anc idss ->
  forall c : cursor, mapM (stepToken fuel) pre (cursor0 mode) = (c, Ret tt) ->
  exists st rest, c_stack c = st :: rest /\ valid (hp c) (ml st) /\ slice_read (hp c) (ml st) = concat idss.
Proof.
  induction 1 as [|pre anc n Ho IH|pre anc name attrs Ho IH]; intros Hu idss Hi c H.
  - inversion Hi; subst. injection H as <-. eexists _, _. split; [reflexivity|]. split; [unfold valid; cbn; lia|reflexivity].
  - apply no_start_app in Hu as [Hu1 Hu2]. rewrite mapM_app in H. apply seqC in H. destruct H as (c1 & [] & H1 & H2).
    destruct (IH Hu1 idss Hi c1 H1) as (st & rest & S1 & V1 & R1).
    destruct (closed_node fuel n (mentions_start _ _ Hu2) c1 c st rest S1 V1 H2) as [S2 L2]. exists st, rest. split; [congruence|].
    split; [eapply valid_hle; eassumption|]. rewrite <- R1. eapply read_hle; [exact L2|exact V1|apply le_n].
  - apply no_start_app in Hu as [Hu1 Hu2]. rewrite mapM_app in H. apply seqC in H. destruct H as (c1 & [] & H1 & H2).
    apply Forall2_app_inv_l in Hi. destruct Hi as (i1 & i2 & Hi1 & Hi2 & ->). inversion Hi2 as [|? ids ? r Ha Hr]; subst. inversion Hr; subst.
    destruct (IH Hu1 i1 Hi1 c1 H1) as (st & rest & S1 & V1 & R1).
    cbn [mapM stepToken] in H2. apply seqC in H2. destruct H2 as (c2 & [] & H2 & H3). injection H3 as <-.
    apply seqC in H2. destruct H2 as (c3 & [] & H2 & H3).
    destruct (push_reads attrs ids c1 c3 st rest Ha S1 V1 H2) as (st' & S2 & V2 & R2 & _).
    assert (Hn : name <> "use"%string) by (intros ->; apply (Hu2 attrs); now left).
    pose proof (start_hs fuel name attrs Hn c3) as K. rewrite H3 in K. destruct K as [K1 K2]. cbn [fst] in K1, K2.
    exists st', (c_stack c1). rewrite K2. split; [congruence|]. split; [exact V2|]. rewrite R2, R1, concat_app. cbn. rewrite app_nil_r. reflexivity.
Qed.
(** the paths an element adds have the style on top of the stack *)
Definition adds (st : style E) (c c' : cursor) : Prop :=
  c_stack c' = c_stack c /\ hp c' = hp c /\ exists l, sv_paths (c_svg c') = sv_paths (c_svg c) ++ l /\ Forall (fun p => sp_style p = st) l.
Lemma start_adds fuel name attrs (c : cursor) st rest : name <> "use"%string -> c_stack c = st :: rest ->
  adds st c (fst (readStartElement fuel name attrs c)).
Proof.
  intros Hn Hs. pose proof (start_hs fuel name attrs Hn c) as [K1 K2]. split; [exact K1|]. split; [exact K2|]. clear K1 K2.
  set (sp := fun (c c' : cursor) => c_stack c' = c_stack c /\ sv_paths (c_svg c') = sv_paths (c_svg c)).
  assert (sr : forall c, sp c c) by (split; reflexivity). assert (st' : forall a b c, sp a b -> sp b c -> sp a c) by (unfold sp; intuition congruence).
  unfold readStartElement. unfold bind at 1. unfold gets at 1. cbv zeta. destruct (c_inDefs c && _).
  - assert (K : keeps sp ((if negb (String.eqb (attrID attrs) "") then flushDefs else ret tt) ;; addDef (mkDef (attrID attrs) name attrs) : @C E unit)).
    { apply (keeps_bind sp st'); [apply keeps_if; [apply (kp_flushDefs sp); auto; split; reflexivity|apply (keeps_ret sp), sr]|]. intros _'. apply (kp_addDef sp). split; reflexivity. }
    destruct (K c) as [_ K']. exists []. rewrite app_nil_r. auto.
  - unfold drawFuncs. pose proof Hn as Hn'. apply String.eqb_neq in Hn'. rewrite Hn'. destruct (drawFunc fuel name) as [df|] eqn:Hdf.
    2:{ destruct (kp_handleError sp sr st' (fun p c => conj eq_refl eq_refl) (cannotProcess name) c) as [_ K]. exists []. rewrite app_nil_r. auto. }
    assert (K : keeps sp (df attrs)) by (eapply kp_drawFunc; try eassumption; split; reflexivity).
    specialize (K c). unfold bind, attempt. destruct (df attrs c) as [c1 [[]|e| |]]; cbn [fst] in K; destruct K as [K1 K2]; cbv [fst];
      try (exists []; rewrite app_nil_r; auto; fail).
    + unfold collectPath, bind, gets. destruct (pc_path (c_pc c1)) as [|o p]; [exists []; rewrite app_nil_r; auto|].
      destruct (c_inMask c1). { destruct (c_mask c1); [unfold topStyle; destruct (c_stack c1)|]; exists []; rewrite app_nil_r; auto. }
      unfold topStyle. rewrite K1, Hs. cbn. rewrite K2. eexists. split; [reflexivity|]. constructor; [reflexivity|constructor].
    + unfold collectPath, bind, gets. destruct (pc_path (c_pc c1)) as [|o p]; [exists []; rewrite app_nil_r; auto|].
      destruct (c_inMask c1). { destruct (c_mask c1); [unfold topStyle; destruct (c_stack c1)|]; exists []; rewrite app_nil_r; auto. }
      unfold topStyle. rewrite K1, Hs. cbn. rewrite K2. eexists. split; [reflexivity|]. constructor; [reflexivity|constructor].
Qed.
Theorem element_masks fuel mode pre anc name attrs idss tm1 tm2 (s1 s2 : svg E) e1 e2 log1 log2 :
  open_at pre anc -> no_start "use" (pre ++ [TStart name attrs]) -> Forall2 (fun a ids => attrs_mask (snd a) ids) (anc ++ [(name, attrs)]) idss ->
  parse fuel mode pre tm1 = PSvg s1 e1 log1 -> parse fuel mode (pre ++ [TStart name attrs]) tm2 = PSvg s2 e2 log2 ->
  exists l, sv_paths s2 = sv_paths s1 ++ l /\ forall p, List.In p l -> sl_len (st_masks (sp_style p)) = length (concat idss) /\ path_masks s2 p = concat idss.
Proof.
  intros Ho Hu Hi H1 H2. apply no_start_app in Hu as [Hu1 Hu2]. assert (Hn : name <> "use"%string) by (intros ->; apply (Hu2 attrs); now left).
  apply parse_state in H1, H2. destruct H1 as [-> H1], H2 as [-> H2]. rewrite mapM_app in H2 |- *. unfold bind in H2 |- *.
  destruct (mapM (stepToken fuel) pre (cursor0 mode)) as [c [[]|e| |]] eqn:Hp; cbn [fst snd] in *;
    try (exists []; rewrite app_nil_r; split; [reflexivity|intros p []]; fail).
  apply Forall2_app_inv_l in Hi. destruct Hi as (i1 & i2 & Hi1 & Hi2 & ->). inversion Hi2 as [|? ids ? r Ha Hr]; subst. inversion Hr; subst.
  destruct (chain_masks fuel mode pre anc Ho Hu1 i1 Hi1 c Hp) as (st & rest & S1 & V1 & R1).
  clear H1 H2. cbn [mapM stepToken]. unfold bind.
  pose proof (push_ok 0 attrs c st rest S1 V1 (or_introl (Nat.le_0_l _))) as (_ & (P2 & _) & _).
  destruct (pushStyle attrs c) as [c1 [[]|e| |]] eqn:Hps; cbn [fst] in P2; cbv [fst];
    try (exists []; rewrite app_nil_r; split; [exact P2|intros p []]; fail).
  destruct (push_reads attrs ids c c1 st rest Ha S1 V1 Hps) as (st1 & S2 & V2 & R2 & _).
  pose proof (start_adds fuel name attrs c1 st1 (c_stack c) Hn S2) as (K1 & K2 & l & K3 & K4).
  exists l. assert (Hgoal : forall p, List.In p l -> sl_len (st_masks (sp_style p)) = length (concat (i1 ++ [ids])) /\
     slice_read (hp (fst (readStartElement fuel name attrs c1))) (ml (sp_style p)) = concat (i1 ++ [ids])).
  { intros p Hpl. rewrite Forall_forall in K4. rewrite (K4 p Hpl), K2.
    assert (Hr' : slice_read (hp c1) (ml st1) = concat (i1 ++ [ids])) by (rewrite R2, R1, concat_app; cbn; rewrite app_nil_r; reflexivity).
    split; [|exact Hr']. rewrite <- Hr'. unfold slice_read. rewrite firstn_length. destruct V2 as (V21 & V22 & V23). lia. }
  unfold path_masks. destruct (readStartElement fuel name attrs c1) as [c2 [[]|e| |]]; cbn [fst] in *; (split; [rewrite <- P2; exact K3|exact Hgoal]).
Qed.
Theorem element_masks_final fuel mode n pre anc name attrs idss rest tm1 tm3 (s1 s3 : svg E) e1 e3 log1 log3 :
  (forall k, S k < n -> growcap E k <= S k) -> length (concat idss) <= n ->
  open_at pre anc -> no_start "use" (pre ++ [TStart name attrs]) -> Forall2 (fun a ids => attrs_mask (snd a) ids) (anc ++ [(name, attrs)]) idss ->
  parse fuel mode pre tm1 = PSvg s1 e1 log1 -> parse fuel mode (pre ++ TStart name attrs :: rest) tm3 = PSvg s3 e3 log3 ->
  exists l l', sv_paths s3 = sv_paths s1 ++ l ++ l' /\ (forall p, List.In p l -> path_masks s3 p = concat idss)
    /\ forall tm2 (s2 : svg E) e2 log2, parse fuel mode (pre ++ [TStart name attrs]) tm2 = PSvg s2 e2 log2 -> sv_paths s2 = sv_paths s1 ++ l.
Proof.
  intros Hg Hlen Ho Hu Hi H1 H3.
  assert (H2 : exists (s2 : svg E) e2 log2, parse fuel mode (pre ++ [TStart name attrs]) (TermErr "") = PSvg s2 e2 log2).
  { pose proof (parse_state _ _ _ _ _ _ _ H3) as [_ K]. change (TStart name attrs :: rest) with ([TStart name attrs] ++ rest) in K. rewrite app_assoc, mapM_app in K.
    unfold parse. unfold bind in K. destruct (mapM (stepToken fuel) (pre ++ [TStart name attrs]) (cursor0 mode)) as [c [[]|e| |]]; eauto;
      cbn in K; destruct K as [K|[x K]]; discriminate. }
  destruct H2 as (s2 & e2 & log2 & H2).
  destruct (element_masks _ _ _ _ _ _ _ _ _ _ _ _ _ _ _ Ho Hu Hi H1 H2) as (l & L1 & L2).
  change (TStart name attrs :: rest) with ([TStart name attrs] ++ rest) in H3. rewrite app_assoc in H3.
  destruct (stored_final _ _ n _ _ _ _ _ _ _ _ _ _ Hg H2 H3) as ((l' & F1) & F2). exists l, l'. split; [rewrite F1, L1, app_assoc; reflexivity|]. split.
  - intros p Hpl. destruct (L2 p Hpl) as [Q1 Q2]. rewrite F2; [exact Q2| |lia]. left. rewrite L1. apply in_or_app. auto.
  - intros tm2 s2' e2' log2' H2'. apply parse_state in H2, H2'. destruct H2 as [-> _], H2' as [-> _]. exact L1.
Qed.
End Heap.

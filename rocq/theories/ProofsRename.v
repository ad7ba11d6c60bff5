(** * ProofsRename: the names of ids do not matter *)
From Coq Require Import Lia.
From Verif Require Export SpecRename ProofsErase.
Local Open Scope go_scope.

(** ** Texts without url( *)
Lemma prefix_longer p w b : String.prefix p w = true -> String.prefix p (w ++ b) = true.
Proof.
  revert w. induction p as [|c p IH]; intros w; [intros _; destruct (w ++ b)%string; reflexivity|]. destruct w as [|d w]; [discriminate|]. cbn.
  destruct (ascii_dec c d); [apply IH|discriminate].
Qed.
Lemma mentions_right w b : mentions_url w = true -> mentions_url (w ++ b) = true.
Proof.
  induction w as [|c w IH]; [discriminate|]. intros H. cbn [mentions_url] in H. apply Bool.orb_prop in H as [H|H].
  - cbn [append mentions_url]. change (String c (w ++ b)) with (String c w ++ b)%string. rewrite (prefix_longer _ _ _ H). reflexivity.
  - cbn [append mentions_url]. rewrite (IH H). apply Bool.orb_true_r.
Qed.
Lemma mentions_left a w : mentions_url w = true -> mentions_url (a ++ w) = true.
Proof. intros H. induction a as [|c a IH]; [exact H|]. cbn [append mentions_url]. rewrite IH. apply Bool.orb_true_r. Qed.
Definition within (w s : string) : Prop := exists a b, s = (a ++ w ++ b)%string.
Lemma within_refl s : within s s. Proof. exists ""%string, ""%string. rewrite sapp_nil_r. reflexivity. Qed.
Lemma within_trans a b c : within a b -> within b c -> within a c.
Proof. intros (x & y & ->) (z & t & ->). exists (z ++ x)%string, (y ++ t)%string. rewrite !sapp_assoc. reflexivity. Qed.
Lemma within_free w s : within w s -> mentions_url s = false -> mentions_url w = false.
Proof.
  intros (a & b & ->) H. destruct (mentions_url w) eqn:Hw; [|reflexivity]. rewrite (mentions_left a (w ++ b) (mentions_right w b Hw)) in H. discriminate.
Qed.
Lemma split_hd d s : exists h t b, split1 d s = h :: t /\ s = (h ++ b)%string /\ forall p, List.In p t -> within p s.
Proof.
  induction s as [|c s (h & t & b & H1 & H2 & H3)]; cbn [split1].
  - exists ""%string, [], ""%string. repeat split. intros p [].
  - assert (K : forall p, List.In p (h :: t) -> within p (String c s)).
    { intros p [<-|Hi]; [exists (String c ""), b; cbn; rewrite <- H2; reflexivity|]. destruct (H3 p Hi) as (a & b' & ->). exists (String c a), b'. reflexivity. }
    destruct (Ascii.eqb c d).
    + exists ""%string, (split1 d s), (String c s). repeat split. rewrite H1. exact K.
    + rewrite H1. exists (String c h), t, b. repeat split; [cbn; rewrite <- H2; reflexivity|]. intros p Hp. apply K. right. exact Hp.
Qed.
Lemma within_split d s p : List.In p (split1 d s) -> within p s.
Proof.
  destruct (split_hd d s) as (h & t & b & -> & H2 & H3). intros [<-|Hi]; [|exact (H3 p Hi)]. exists ""%string, b. exact H2.
Qed.
Lemma trim_left_tail s : forall k, exists a, s = (a ++ trim_left_from k s)%string.
Proof.
  induction s as [|c s IH]; intros k; [exists ""%string; reflexivity|]. cbn [trim_left_from].
  destruct k as [|k]; [destruct (space_width (String c s)) as [|k]; [exists ""%string; reflexivity|]|]; destruct (IH k) as (a & Ha); exists (String c a); cbn; f_equal; exact Ha.
Qed.
Lemma trim_rev_tail s : forall k, exists a, s = (a ++ trim_rev_from k s)%string.
Proof.
  induction s as [|c s IH]; intros k; [exists ""%string; reflexivity|]. cbn [trim_rev_from].
  destruct k as [|k]; [destruct (space_width_rev (String c s)) as [|k]; [exists ""%string; reflexivity|]|]; destruct (IH k) as (a & Ha); exists (String c a); cbn; f_equal; exact Ha.
Qed.
Lemma within_trim s : within (trimSpace s) s.
Proof.
  unfold trimSpace. destruct (trim_left_tail s 0) as (a & Ha). fold (trim_left s) in Ha. set (t := trim_left s) in *. clearbody t. subst s.
  unfold trim_right. destruct (trim_rev_tail (rev_str t) 0) as (b & Hb). set (u := trim_rev_from 0 (rev_str t)) in *. clearbody u.
  assert (H : t = (rev_str u ++ rev_str b)%string) by (rewrite <- (rev_rev t), Hb, rev_app; reflexivity).
  exists a, (rev_str b). rewrite H. reflexivity.
Qed.
Lemma free_prefix v : mentions_url v = false -> hasPrefix v "url(" = false.
Proof. destruct v as [|c v]; [reflexivity|]. intros H. cbn [mentions_url] in H. apply Bool.orb_false_iff in H as [H _]. exact H. Qed.
Lemma pair_free p k v r : mentions_url p = false -> split1 ":" p = k :: v :: r -> hasPrefix (trimSpace v) "url(" = false.
Proof.
  intros Hp Hs. apply free_prefix. apply (within_free _ p); [|exact Hp]. eapply within_trans; [apply within_trim|]. apply (within_split ":" p). rewrite Hs. right. left. reflexivity.
Qed.
Lemma piece_free n v p : mentions_url (n ++ ":" ++ v) = false -> List.In p (split1 ";" v) -> mentions_url p = false.
Proof.
  intros H Hp. apply (within_free p (n ++ ":" ++ v)); [|exact H]. eapply within_trans; [apply (within_split _ _ _ Hp)|].
  exists (n ++ ":")%string, ""%string. rewrite sapp_nil_r, sapp_assoc. reflexivity.
Qed.

(** ** names of properties *)
Lemma lower_letter c : is_lower (lower_ascii c) = true -> is_ascii c && negb (is_blank c) && negb (Ascii.eqb c ":") = true.
Proof. destruct c as [b0 b1 b2 b3 b4 b5 b6 b7]. destruct b0, b1, b2, b3, b4, b5, b6, b7; intros H; vm_compute in H |- *; congruence. Qed.
Lemma lower_letters n : all_chars is_lower (low_case n) = true -> all_chars (fun c => is_ascii c && negb (is_blank c) && negb (Ascii.eqb c ":")) n = true.
Proof.
  unfold low_case. induction n as [|c n IH]; [reflexivity|]. cbn [map_chars all_chars]. intros H. apply andb_prop in H as [H1 H2].
  rewrite lower_letter, IH by assumption. reflexivity.
Qed.
Lemma all_chars_impl (p q : ascii -> bool) s : (forall c, p c = true -> q c = true) -> all_chars p s = true -> all_chars q s = true.
Proof. intros H. induction s as [|c s IH]; [reflexivity|]. cbn. intros K. apply andb_prop in K as [K1 K2]. rewrite (H _ K1), (IH K2). reflexivity. Qed.
Lemma solid_padded w : all_chars (fun c => is_ascii c && negb (is_blank c)) w = true -> padded w w.
Proof.
  intros H. exists ""%string, ""%string. rewrite sapp_nil_r. repeat split.
  - unfold no_blank_end. apply andb_true_intro. split.
    + destruct w as [|c w]; [reflexivity|]. cbn [all_chars] in H. apply andb_prop in H as [H _]. apply andb_prop in H as [_ H]. exact H.
    + induction w as [|c [|d w] IH]; [reflexivity| |].
      * cbn [all_chars] in H. apply andb_prop in H as [H _]. apply andb_prop in H as [_ H]. exact H.
      * cbn [ends_with]. apply IH. cbn [all_chars] in H |- *. apply andb_prop in H as [_ H]. exact H.
  - eapply all_chars_impl; [|exact H]. intros c Hc. apply andb_prop in Hc as [Hc _]. exact Hc.
Qed.

Section Rename.
Context {E : Env} (rho : string -> string) (Hinj : forall x y, rho x = rho y -> x = y) (Hnil : rho EmptyString = EmptyString).
Notation cursor := (cursor E).
Notation style := (style E).
Notation svg := (svg E).
Notation C := (@C E).
Notation ra := (Forall2 (ren_attr rho)).
Definition rkey {V} (kv : string * V) : string * V := (rho (fst kv), snd kv).
Definition rkm (kv : string * svgMask E) : string * svgMask E := (rho (fst kv), ren_mask rho (snd kv)).
Definition Rdef (d1 d2 : definition) : Prop := d_id d2 = rho (d_id d1) /\ d_tag d1 = d_tag d2 /\ ra (d_attrs d1) (d_attrs d2).
Definition Rdefs (p1 p2 : string * list definition) : Prop := fst p2 = rho (fst p1) /\ Forall2 Rdef (snd p1) (snd p2).
Inductive Rsvg : svg -> svg -> Prop :=
| rsvg vb ti de ps tr m w h gr d1 d2 hp : Forall2 Rdefs d1 d2 ->
    Rsvg (mkSvg vb ti de ps tr m w h gr d1 hp) (mkSvg vb ti de ps tr (map rkm m) w h (map rkey gr) d2 (map (map rho) hp)).
Inductive Re : cursor -> cursor -> Prop :=
| re pc s1 s2 t g gh b1 b2 b3 b4 b5 d1 d2 m : Rsvg s1 s2 -> Forall2 Rdef d1 d2 ->
    Re (mkCur pc s1 t g gh b1 b2 b3 b4 b5 d1 m) (mkCur pc s2 t g gh b1 b2 b3 b4 b5 d2 (option_map (ren_mask rho) m)).
Notation rv := (relV Re).
Notation self m := (relV Re eq m m).
Lemma rho_eqb x y : String.eqb (rho x) (rho y) = String.eqb x y.
Proof. destruct (String.eqb x y) eqn:H; [apply String.eqb_eq in H; subst; apply String.eqb_refl|]. apply String.eqb_neq in H. apply String.eqb_neq. intros K. apply H, Hinj, K. Qed.
Lemma rho_nil x : String.eqb (rho x) "" = String.eqb x "".
Proof. rewrite <- Hnil at 1. apply rho_eqb. Qed.
Lemma get_key {V} k (m : smap V) : mget (rho k) (map rkey m) = mget k m.
Proof. induction m as [|[x v] m IH]; [reflexivity|]. cbn. rewrite rho_eqb, IH. reflexivity. Qed.
Lemma put_key {V} k (v : V) m : mput (rho k) v (map rkey m) = map rkey (mput k v m).
Proof. unfold mput. cbn [map]. f_equal. induction m as [|[x u] m IH]; [reflexivity|]. cbn. rewrite rho_eqb. destruct (String.eqb k x); cbn; rewrite IH; reflexivity. Qed.
Lemma get_mask k m : mget (rho k) (map rkm m) = option_map (ren_mask rho) (mget k m).
Proof. induction m as [|[x v] m IH]; [reflexivity|]. cbn. rewrite rho_eqb. destruct (String.eqb k x); [reflexivity|exact IH]. Qed.
Lemma put_mask k v m : mput (rho k) (ren_mask rho v) (map rkm m) = map rkm (mput k v m).
Proof. unfold mput. cbn [map]. f_equal. induction m as [|[x u] m IH]; [reflexivity|]. cbn. rewrite rho_eqb. destruct (String.eqb k x); cbn; rewrite IH; reflexivity. Qed.

Ltac recase := intros c1 c2 [pc s1 s2 t g gh b1 b2 b3 b4 b5 d1 d2 mo H1 H3].
Ltac recs := intros c1 c2 [pc s1 s2 t g gh b1 b2 b3 b4 b5 d1 d2 mo [vb ti de ps tr mk w h gr e1 e2 hp P3] H3].
Ltac rec2 := intros ? ? [? ? ? ? ? ? ? ? ? ? ? ? ? ? ? ?].
Lemma re_liftP {A} (m : M (pcur E) A) : self (liftP m).
Proof. recase. unfold liftP. cbn. destruct (m pc) as [pc' [a|e| |]]; repeat split; assumption. Qed.
Lemma re_onSvg f : (forall s1 s2, Rsvg s1 s2 -> Rsvg (f s1) (f s2)) -> self (onSvg f).
Proof. intros Hf. apply rv_modify. recase. cbn. constructor; auto. Qed.
Lemma re_topStyle : self topStyle.
Proof. recase. unfold topStyle. cbn. destruct t; [|split; [reflexivity|]]; constructor; auto. Qed.
Lemma re_popStyle : self popStyle.
Proof. recase. unfold popStyle. cbn. destruct t; [|split; [reflexivity|]]; constructor; auto. Qed.
Lemma re_vb c1 c2 : Re c1 c2 -> sv_viewBox (c_svg c1) = sv_viewBox (c_svg c2).
Proof. revert c1 c2. recs. reflexivity. Qed.
Lemma re_cParseUnit s p : self (cParseUnit s p).
Proof. intros c1 c2 H. unfold cParseUnit. rewrite (re_vb _ _ H). destruct (resolveUnit _ s p); auto. Qed.
Lemma re_handleError msg : self (handleError msg).
Proof. unfold handleError. apply rv_bindE; [apply rv_gets; recase; reflexivity|]. intros []; auto using rv_raise, re_liftP, rv_ret. Qed.
Lemma re_parseDashes l : self (parseDashes l).
Proof. induction l; cbn [parseDashes]; [apply rv_ret; reflexivity|]. apply rv_bindE; [apply re_cParseUnit|]. intros d. apply rv_bindE; [exact IHl|]. intros. apply rv_ret. reflexivity. Qed.
Lemma re_points : self (gets (fun c : cursor => pc_points (c_pc c))). Proof. apply rv_gets. recase. reflexivity. Qed.
Lemma re_transformStep m t : self (transformStep m t).
Proof.
  unfold transformStep. cbv zeta. apply rv_if; [apply rv_ret; reflexivity|]. destruct (split1 "(" (trimSpace t)) as [|x [|y [|z r]]]; try apply rv_raise.
  apply rv_if; [apply rv_raise|]. apply rv_bindE; [apply re_liftP|]. intros _. apply rv_bindE; [apply re_points|]. intros ps. apply rv_lift.
Qed.
Lemma re_parseTransform v : self (parseTransform v).
Proof. unfold parseTransform. apply rv_bindE; [apply re_topStyle|]. intros a. apply rv_foldM. apply re_transformStep. Qed.
Lemma map_set_nth {A B} (f : A -> B) l : forall i x, map f (set_nth l i x) = set_nth (map f l) i (f x).
Proof. induction l as [|a l IH]; intros [|i] x; cbn; try reflexivity. rewrite IH. reflexivity. Qed.
Lemma nth_rho hp i : nth i (map (map rho) hp) [] = map rho (nth i hp []).
Proof. exact (map_nth (map rho) hp [] i). Qed.
Lemma read_rho hp sl : slice_read (map (map rho) hp) sl = map rho (slice_read hp sl).
Proof. unfold slice_read. rewrite nth_rho. apply firstn_map. Qed.
Lemma re_appendStr x id : rv eq (appendStr x id) (appendStr x (rho id)).
Proof.
  recs. unfold appendStr. cbn [c_svg sv_mheap]. destruct (sl_len x <? sl_cap x); cbv zeta iota.
  - split; [reflexivity|]. rewrite nth_rho, <- !map_set_nth. constructor; auto. constructor; auto.
  - rewrite read_rho, map_length. split; [reflexivity|].
    set (n := _ - _).
    replace (map rho (slice_read hp x) ++ rho id :: repeat EmptyString n) with (map rho (slice_read hp x ++ id :: repeat EmptyString n)).
    2:{ rewrite map_app. cbn [map]. f_equal. f_equal. clear -Hnil. induction n; cbn; rewrite ?Hnil; f_equal; auto. }
    change ([map rho (slice_read hp x ++ id :: repeat EmptyString n)]) with (map (map rho) [slice_read hp x ++ id :: repeat EmptyString n]).
    rewrite <- map_app. constructor; auto. constructor; auto.
Qed.
Lemma id_lacks x : id_text x = true -> lacks ")" x = true /\ lacks ":" x = true /\ all_chars (fun c => is_ascii c && negb (is_blank c)) x = true.
Proof. unfold id_text. intros H. apply andb_prop in H as [H H3]. apply andb_prop in H as [H1 H2]. auto. Qed.
Lemma readGradURL_at x old (c : cursor) : id_text x = true ->
  readGradURL ("url(#" ++ x ++ ")") old c = match mget x (sv_grads (c_svg c)) with Some p => (c, obind (idx (c_gheap c) p) (fun g => Ret (Some (localizeGrad g old)))) | None => (c, Ret None) end.
Proof.
  intros Hx. apply id_lacks in Hx as (_ & _ & Hx). unfold readGradURL.
  change ("url(#" ++ x ++ ")")%string with ("url(" ++ ("#" ++ x) ++ ")")%string. rewrite hasPrefix_app.
  replace (hasSuffix ("url(" ++ ("#" ++ x) ++ ")") ")") with true by (rewrite <- sapp_assoc, hasSuffix_app; reflexivity). cbn [andb].
  erewrite bind_step. 2:{ unfold lift. rewrite slice_mid; [reflexivity|reflexivity|]. rewrite !len_app. cbn. lia. }
  assert (Hsol : solid ("#" ++ x)%string = true).
  { apply solid_chars. cbn [append all_chars]. revert Hx. apply all_chars_imp, plain_of. }
  rewrite trimSpace_solid by assumption. rewrite hasPrefix_app.
  erewrite bind_step. 2:{ unfold lift. rewrite (slice_tail "#" x); [reflexivity|reflexivity|]. cbn. reflexivity. }
  erewrite bind_step by (unfold gets; reflexivity).
  destruct (mget x (sv_grads (c_svg c))) as [p|]; [|reflexivity]. unfold bind, lift. destruct (idx (c_gheap c) p); reflexivity.
Qed.
Lemma re_gradURL_ref v v' d : ref_text rho v v' -> rv eq (readGradURL v d) (readGradURL v' d).
Proof.
  intros [x H1 H2]. intros c1 c2 Hc. rewrite !readGradURL_at by assumption.
  revert c1 c2 Hc. recs. cbn [c_svg sv_grads c_gheap]. rewrite get_key.
  destruct (mget x gr) as [p|]; [destruct (idx gh p)|]; cbn [obind]; repeat split; auto.
Qed.
Lemma re_gradURL_not v d : hasPrefix v "url(" = false -> self (readGradURL v d).
Proof. intros H c1 c2 Hc. rewrite !readGradURL_not by assumption. auto. Qed.
Lemma ref_colour v v' : ref_text rho v v' -> parseSVGColor (E := E) v = Ret (Some (0, 0, 0, 255)%Z) /\ parseSVGColor (E := E) v' = Ret (Some (0, 0, 0, 255)%Z).
Proof.
  intros [x H1 H2].
  assert (K : forall y, id_text y = true -> parseSVGColor (E := E) ("url(#" ++ y ++ ")") = Ret (Some (0, 0, 0, 255)%Z)); [|auto].
  intros y Hy. apply id_lacks in Hy as (_ & _ & Hy). unfold parseSVGColor. 
  destruct (url_lower (E := E) ("url(#" ++ y ++ ")")%string y) as [_ ->]; [|reflexivity]. exists ""%string, ""%string. auto.
Qed.
Lemma ref_selector v v' : ref_text rho v v' -> exists x, parseSelector v = Ret x /\ parseSelector v' = Ret (rho x).
Proof. intros [x H1 H2]. apply id_lacks in H1 as [H1 _]. apply id_lacks in H2 as [H2 _]. exists x. split; apply selector_url; assumption. Qed.
Lemma selector_not v : hasPrefix v "url(" = false -> match parseSelector v with Ret x => x = EmptyString | _ => True end.
Proof. intros H. unfold parseSelector. rewrite H. destruct ((String.length v =? 0) || String.eqb v "none"); [reflexivity|exact I]. Qed.
Ltac sr := apply rv_ret; reflexivity.
Lemma re_style_same st k v : ~ List.In k refs \/ String.prefix "url(" v = false -> self (readStyleAttr st k v).
Proof.
  intros Hk. unfold readStyleAttr.
  assert (R1 : forall n, List.In n refs -> String.eqb k n = true -> hasPrefix v "url(" = false).
  { intros n Hn He. apply String.eqb_eq in He. subst k. destruct Hk as [Hk|Hk]; [contradiction|exact Hk]. }
  destruct (String.eqb k "fill") eqn:K1.
  { pose proof (R1 _ (or_introl eq_refl) K1) as Hv. apply rv_bindE; [apply re_gradURL_not, Hv|]. intros [g|]; [sr|]. apply rv_bindE; [apply rv_lift|]. intros col. sr. }
  apply rv_if. { apply rv_if; [sr|]. apply rv_if; [sr|]. apply rv_bindE; [apply re_handleError|]. intros _. sr. }
  destruct (String.eqb k "stroke") eqn:K2.
  { pose proof (R1 _ (or_intror (or_introl eq_refl)) K2) as Hv. apply rv_bindE; [apply re_gradURL_not, Hv|]. intros [g|]; [sr|]. apply rv_bindE; [apply rv_lift|]. intros col. sr. }
  apply rv_if. { destruct (gapOf v); [sr|]. apply rv_bindE; [apply re_handleError|]. intros _. sr. }
  apply rv_if. { destruct (capOf v); [sr|]. apply rv_bindE; [apply re_handleError|]. intros _. sr. }
  apply rv_if. { destruct (capOf v); [sr|]. apply rv_bindE; [apply re_handleError|]. intros _. sr. }
  apply rv_if. { destruct (joinOf v); [sr|]. apply rv_bindE; [apply re_handleError|]. intros _. sr. }
  apply rv_if. { apply rv_bindE; [apply rv_lift|]. intros f. sr. }
  apply rv_if. { apply rv_bindE; [apply re_cParseUnit|]. intros f. sr. }
  apply rv_if. { apply rv_bindE; [apply re_cParseUnit|]. intros f. sr. }
  apply rv_if. { apply rv_if; [|sr]. apply rv_bindE; [apply re_parseDashes|]. intros f. sr. }
  apply rv_if. { apply rv_bindE; [apply rv_lift|]. intros f. sr. }
  apply rv_if. { apply rv_bindE; [apply re_parseTransform|]. intros f. sr. }
  destruct (String.eqb k "mask") eqn:K3; [|sr].
  pose proof (R1 _ (or_intror (or_intror (or_introl eq_refl))) K3) as Hv. pose proof (selector_not v Hv) as Hs.
  destruct (parseSelector v) as [x|e| |]; try (apply rv_bindE; [apply rv_lift|]; intros id; fail).
  - subst x. intros c1 c2 Hc. unfold lift, bind. pose proof (re_appendStr (st_masks st) "" c1 c2 Hc) as Ha. rewrite Hnil in Ha.
    destruct (appendStr (st_masks st) "" c1) as [u1 [a1|e1| |]], (appendStr (st_masks st) "" c2) as [u2 [a2|e2| |]]; try contradiction; auto.
    destruct Ha as [<- Ha]. split; [reflexivity|exact Ha].
  - intros c1 c2 Hc. cbn. auto.
  - intros c1 c2 Hc. cbn. auto.
  - intros c1 c2 Hc. cbn. auto.
Qed.
Lemma re_style_ref st k v v' : List.In k refs -> ref_text rho v v' -> rv eq (readStyleAttr st k v) (readStyleAttr st k v').
Proof.
  intros Hk Hv. destruct (ref_colour _ _ Hv) as [C1 C2]. destruct (ref_selector _ _ Hv) as (x & S1 & S2).
  destruct Hk as [<-|[<-|[<-|[]]]]; unfold readStyleAttr; cbn [String.eqb Ascii.eqb Bool.eqb orb].
  - apply rv_bindE; [apply re_gradURL_ref, Hv|]. intros [g|]; [sr|]. rewrite C1, C2. apply rv_bindE; [apply rv_lift|]. intros col. sr.
  - apply rv_bindE; [apply re_gradURL_ref, Hv|]. intros [g|]; [sr|]. rewrite C1, C2. apply rv_bindE; [apply rv_lift|]. intros col. sr.
  - rewrite S1, S2. intros c1 c2 Hc. unfold lift, bind. pose proof (re_appendStr (st_masks st) x c1 c2 Hc) as Ha.
    destruct (appendStr (st_masks st) x c1) as [u1 [a1|e1| |]], (appendStr (st_masks st) (rho x) c2) as [u2 [a2|e2| |]]; try contradiction; auto.
    destruct Ha as [<- Ha]. split; [reflexivity|exact Ha].
Qed.
Lemma re_decls ds ds' : Forall2 (ren_decl rho) ds ds' -> forall st, rv eq (foldM readDecl st ds) (foldM readDecl st ds').
Proof.
  induction 1 as [|d d' l l' Hd _ IH]; intros st; [sr|]. cbn [foldM]. apply rv_bindE; [|exact IH].
  destruct Hd as [k v Hk|k v v' Hk Hv]; unfold readDecl; cbn [fst snd]; [apply re_style_same, Hk|apply re_style_ref; assumption].
Qed.
Lemma re_pair_free st p : mentions_url p = false -> self (stylePair st p).
Proof.
  intros Hp. unfold stylePair. destruct (split1 ":" p) as [|k [|v r]] eqn:Hs; [sr|sr|]. apply re_style_same. right. exact (pair_free _ _ _ _ Hp Hs).
Qed.
Lemma re_fold_free l : (forall p, List.In p l -> mentions_url p = false) -> forall st, self (foldM stylePair st l).
Proof.
  induction l as [|p l IH]; intros H st; [sr|]. cbn [foldM]. apply rv_bindE; [apply re_pair_free, H; left; reflexivity|]. apply IH. intros q Hq. apply H. right. exact Hq.
Qed.
Lemma unknown_pair n k v st (c : cursor) : padded n k -> lacks ":" n = true -> parts_named (low_case k) = [] -> stylePair st (n ++ ":" ++ v) c = (c, Ret st).
Proof.
  intros Pn Cn Hk. unfold stylePair. destruct (split_two n v Cn) as (q & -> & Hq).
  destruct q as [|v' q]; [exact (match split1_ne _ _ Hq with end)|]. rewrite (key_reads n k Pn). apply unknown_reads, Hk.
Qed.
Lemma rv_ext {A B} (V : A -> B -> Prop) (m1 m1' : C A) (m2 m2' : C B) : (forall c, m1 c = m1' c) -> (forall c, m2 c = m2' c) -> rv V m1' m2' -> rv V m1 m2.
Proof. intros H1 H2 H c1 c2 Hc. rewrite H1, H2. exact (H c1 c2 Hc). Qed.
Lemma ref_name n : List.In (low_case n) refs -> padded n n /\ lacks ":" n = true /\ low_case n <> "style"%string.
Proof.
  intros H. assert (L : all_chars is_lower (low_case n) = true) by (destruct H as [<-|[<-|[<-|[]]]]; reflexivity).
  apply lower_letters in L. repeat split.
  - apply solid_padded. eapply all_chars_impl; [|exact L]. intros c Hc. apply andb_prop in Hc as [Hc _]. exact Hc.
  - eapply all_chars_impl; [|exact L]. intros c Hc. apply andb_prop in Hc as [_ Hc]. exact Hc.
  - intros K. rewrite K in H. cbn in H. intuition discriminate.
Qed.
Lemma ref_padded x : id_text x = true -> padded ("url(#" ++ x ++ ")") ("url(#" ++ x ++ ")") /\ lacks ":" ("url(#" ++ x ++ ")") = true.
Proof.
  intros H. apply id_lacks in H as (_ & H2 & H3). split.
  - apply solid_padded. rewrite !all_chars_app, H3. reflexivity.
  - unfold lacks in *. rewrite !all_chars_app, H2. reflexivity.
Qed.
Definition pairs1 (a : attr) : list string :=
  if String.eqb (toLower E (a_name a)) "style" then split1 ";" (a_val a) else [(a_name a ++ ":" ++ a_val a)%string].
Lemma re_pairs1 a a' : ren_attr rho a a' -> forall st, rv eq (foldM stylePair st (pairs1 a)) (foldM stylePair st (pairs1 a')).
Proof.
  intros [x|x|n v Hn Hh Hm|n v v' Hn Hv|n v v' ds ds' Hn Hv Hv' Hd] st; unfold pairs1; cbn [a_name a_val].
  - rewrite toLower_low by reflexivity. change (String.eqb (low_case "id") "style") with false. cbv iota. cbn [foldM].
    assert (K : forall y (c : cursor), bind (stylePair st ("id" ++ ":" ++ y)) (fun l' => ret l') c = (c, Ret st)) by
      (intros y c; unfold bind; rewrite (unknown_pair "id" "id") by (try reflexivity; apply solid_padded; reflexivity); reflexivity).
    intros c1 c2 Hc. rewrite !K. auto.
  - rewrite toLower_low by reflexivity. change (String.eqb (low_case "href") "style") with false. cbv iota. cbn [foldM].
    assert (K : forall y (c : cursor), bind (stylePair st ("href" ++ ":" ++ y)) (fun l' => ret l') c = (c, Ret st)) by
      (intros y c; unfold bind; rewrite (unknown_pair "href" "href") by (try reflexivity; apply solid_padded; reflexivity); reflexivity).
    intros c1 c2 Hc. rewrite !K. auto.
  - apply re_fold_free. destruct (String.eqb (toLower E n) "style"); intros p Hp.
    + exact (piece_free _ _ _ Hm Hp).
    + destruct Hp as [<-|[]]. exact Hm.
  - destruct (ref_name n Hn) as (Pn & Cn & Sn). rewrite toLower_low by (eapply padded_ascii; eauto). apply String.eqb_neq in Sn. rewrite Sn.
    destruct Hv as [x Hx Hx']. destruct (ref_padded x Hx) as [P1 L1]. destruct (ref_padded _ Hx') as [P2 L2].
    cbn [foldM]. apply rv_bindE; [|intros s; sr].
    eapply rv_ext; [intros c; exact (decl_text_reads _ _ (dt_decl _ _ _ _ Pn P1 Cn L1) st c)|intros c; exact (decl_text_reads _ _ (dt_decl _ _ _ _ Pn P2 Cn L2) st c)|].
    cbn [foldM]. apply rv_bindE; [|intros s; sr]. apply re_style_ref; [exact Hn|constructor; assumption].
  - rewrite toLower_low.
    2:{ assert (L : all_chars is_lower (low_case n) = true) by (rewrite Hn; reflexivity). apply lower_letters in L. eapply all_chars_impl; [|exact L].
        intros c Hc. apply andb_prop in Hc as [Hc _]. apply andb_prop in Hc as [Hc _]. exact Hc. }
    rewrite Hn. change (String.eqb "style" "style") with true. cbv iota.
    eapply rv_ext; [intros c; apply (style_text_reads _ _ Hv)|intros c; apply (style_text_reads _ _ Hv')|]. apply re_decls, Hd.
Qed.
Lemma re_pairs l l' : ra l l' -> forall st, rv eq (foldM stylePair st (stylePairs (E := E) l)) (foldM stylePair st (stylePairs (E := E) l')).
Proof.
  induction 1 as [|a a' l l' Ha _ IH]; intros st; [sr|]. cbn [stylePairs flat_map]. eapply rv_ext; [intros c; apply foldM_app|intros c; apply foldM_app|].
  apply rv_bindE; [apply (re_pairs1 _ _ Ha)|exact IH].
Qed.
Lemma re_pushStyle l l' : ra l l' -> rv eq (pushStyle l) (pushStyle l').
Proof.
  intros Hl. unfold pushStyle. apply rv_bindE; [apply re_topStyle|]. intros a. apply rv_bindE; [apply re_pairs, Hl|].
  intros x. apply rv_modify. rec2. constructor; auto.
Qed.

(** ** elements *)
Lemma names_apart n : List.In (low_case n) refs \/ low_case n = "style"%string -> ~ List.In n element_names.
Proof.
  intros H Hn. repeat (destruct Hn as [<-|Hn]; [vm_compute in H; intuition discriminate|]). destruct Hn.
Qed.
Lemma re_attrs {L} (V : L -> L -> Prop) (f : L -> attr -> C L) :
  (forall x x' v, V x x' -> rv V (f x (mkAttr "id" v)) (f x' (mkAttr "id" (rho v)))) ->
  (forall x x' v, V x x' -> rv V (f x (mkAttr "href" ("#" ++ v))) (f x' (mkAttr "href" ("#" ++ rho v)))) ->
  (forall x x' n v, V x x' -> n <> "id"%string -> (n = "href"%string -> String.prefix "#" v = false) -> rv V (f x (mkAttr n v)) (f x' (mkAttr n v))) ->
  (forall x a c, ~ List.In (a_name a) element_names -> f x a c = (c, Ret x)) ->
  forall l l', ra l l' -> forall x x', V x x' -> rv V (foldM f x l) (foldM f x' l').
Proof.
  intros Hid Hhr Hse Hig l l' Hl. induction Hl as [|a a' l l' Ha _ IH]; intros x x' Hx; [apply rv_ret, Hx|].
  cbn [foldM]. eapply rv_bind; [|exact IH].
  destruct Ha as [v|v|n v Hn Hh _|n v v' Hn _|n v v' ds ds' Hn _ _ _].
  - apply Hid, Hx. - apply Hhr, Hx. - apply Hse; assumption.
  - intros c1 c2 Hc. rewrite !Hig by (apply names_apart; left; exact Hn). auto.
  - intros c1 c2 Hc. rewrite !Hig by (apply names_apart; right; exact Hn). auto.
Qed.
(** elements that do not read id and href *)
Lemma re_attrs0 {L} (f : L -> attr -> C L) : (forall x a, self (f x a)) -> (forall x a c, ~ List.In (a_name a) element_names \/ List.In (a_name a) ["id"; "href"]%string -> f x a c = (c, Ret x)) ->
  forall l l', ra l l' -> forall x, rv eq (foldM f x l) (foldM f x l').
Proof.
  intros Hs Hi l l' Hl x. apply re_attrs; auto.
  - intros y y' v <- c1 c2 Hc. rewrite !Hi by (right; left; reflexivity). auto.
  - intros y y' v <- c1 c2 Hc. rewrite !Hi by (right; right; left; reflexivity). auto.
  - intros y y' n v <- _ _. apply Hs.
Qed.
Lemma not_named n a : ~ List.In (a_name a) element_names \/ List.In (a_name a) ["id"; "href"]%string -> List.In n element_names -> ~ List.In n ["id"; "href"]%string -> is a n = false.
Proof. intros H1 H2 H3. unfold is. apply String.eqb_neq. intros H4. rewrite H4 in H1. tauto. Qed.
Ltac others H := rewrite !(fun n K K' => not_named n _ H K K') by (vm_compute; intuition discriminate).
Ltac step1 :=
  match goal with
  | |- forall _, relV _ _ _ _ => intros ?
  | |- relV _ _ (ret _) _ => apply rv_ret; reflexivity
  | |- relV _ _ (raise _) _ => apply rv_raise
  | |- relV _ _ (lift _) _ => apply rv_lift
  | |- relV _ _ nofuel _ => apply rv_nofuel
  | |- relV _ _ (if _ then _ else _) _ => apply rv_if
  | |- relV _ _ (loop _ _ _ _ _) _ => apply rv_loop
  | |- relV _ _ (attempt _) _ => apply rv_attempt
  | |- relV _ _ (liftP _) _ => apply re_liftP
  | |- relV _ _ (cGetPoints _) _ => apply re_liftP
  | |- relV _ _ (onCPath _) _ => apply re_liftP
  | |- relV _ _ cPoints _ => apply re_points
  | |- relV _ _ (cParseUnit _ _) _ => apply re_cParseUnit
  | |- relV _ _ (bind _ _) _ => apply rv_bindE
  | |- relV _ _ (match ?x with _ => _ end) _ => destruct x
  | |- relV _ _ (let _ := _ in _) _ => cbv zeta
  end.
Ltac svg1 := apply re_onSvg; intros ? ? [? ? ? ? ? ? ? ? ? ? ? ? ?]; constructor; auto.
Lemma re_curXY : self curXY. Proof. apply rv_gets. recase. reflexivity. Qed.
Lemma re_svgF l l' : ra l l' -> rv eq (svgF l) (svgF l').
Proof.
  intros Hl. unfold svgF. apply rv_bindE; [svg1|]. intros _. apply rv_bindE.
  - apply re_attrs0; [| |exact Hl].
    + intros [w h] a. unfold svgAttr. repeat (step1 || svg1).
    + intros [w h] a c Ha. unfold svgAttr. others Ha. reflexivity.
  - intros [w h]. cbv zeta. apply re_onSvg. intros s1 s2 [vb ti de ps tr mk w' h' gr e1 e2 hp P3]. constructor; auto.
Qed.
Lemma re_rectF fuel l l' : ra l l' -> rv eq (rectF fuel l) (rectF fuel l').
Proof.
  intros Hl. unfold rectF. apply rv_bindE.
  - apply re_attrs0; [| |exact Hl].
    + intros [[[[[x y] w] h] rx] ry] a. unfold rectAttr. repeat step1.
    + intros [[[[[x y] w] h] rx] ry] a c Ha. unfold rectAttr. others Ha. reflexivity.
  - intros [[[[[x y] w] h] rx] ry]. cbv zeta. apply rv_if; [step1|]. apply rv_bindE; [apply re_curXY|]. intros [cx cy].
    apply rv_bindE; [apply rv_gets; recase; reflexivity|]. intros p. repeat step1.
Qed.
Lemma re_circleF l l' : ra l l' -> rv eq (circleF l) (circleF l').
Proof.
  intros Hl. unfold circleF. apply rv_bindE.
  - apply re_attrs0; [| |exact Hl].
    + intros [[[x y] w] h] a. unfold circleAttr. repeat step1.
    + intros [[[x y] w] h] a c Ha. unfold circleAttr. others Ha. reflexivity.
  - intros [[[x y] w] h]. apply rv_if; [step1|]. apply rv_bindE; [apply re_curXY|]. intros [cx cy]. apply re_liftP.
Qed.
Lemma re_lineF l l' : ra l l' -> rv eq (lineF l) (lineF l').
Proof.
  intros Hl. unfold lineF. apply rv_bindE.
  - apply re_attrs0; [| |exact Hl].
    + intros [[[x y] w] h] a. unfold lineAttr. repeat step1.
    + intros [[[x y] w] h] a c Ha. unfold lineAttr. others Ha. reflexivity.
  - intros [[[x y] w] h]. repeat step1.
Qed.
Lemma re_polylineF l l' : ra l l' -> rv eq (polylineF l) (polylineF l').
Proof.
  intros Hl. unfold polylineF. apply rv_bindE.
  - apply re_attrs0; [| |exact Hl].
    + intros x a. unfold polyAttr. repeat step1.
    + intros [] a c Ha. unfold polyAttr. others Ha. reflexivity.
  - intros _. repeat step1.
Qed.
Lemma re_polygonF l l' : ra l l' -> rv eq (polygonF l) (polygonF l').
Proof. intros Hl. unfold polygonF. apply rv_bindE; [apply rv_attempt, re_polylineF, Hl|]. intros o. repeat step1. Qed.
Lemma re_pathF l l' : ra l l' -> rv eq (pathF l) (pathF l').
Proof.
  unfold pathF. induction 1 as [|a a' l l' Ha _ IH]; cbn [mapM]; [step1|]. apply rv_bindE; [|intros _; exact IH].
  destruct Ha as [v|v|n v Hn Hh _|n v v' Hn _|n v v' ds ds' Hn _ _ _].
  - change (relV Re eq (ret tt) (ret tt : C unit)). step1. - change (relV Re eq (ret tt) (ret tt : C unit)). step1. - repeat step1.
  - apply (or_introl (B := low_case n = "style"%string)) in Hn. apply names_apart in Hn.
    assert (K : String.eqb n "d" = false) by (apply String.eqb_neq; intros ->; apply Hn; vm_compute; tauto). unfold is. cbn [a_name]. rewrite K. step1.
  - apply (or_intror (A := List.In (low_case n) refs)) in Hn. apply names_apart in Hn.
    assert (K : String.eqb n "d" = false) by (apply String.eqb_neq; intros ->; apply Hn; vm_compute; tauto). unfold is. cbn [a_name]. rewrite K. step1.
Qed.
Definition Vmask (x x' : string * F E * F E * F E * F E) : Prop :=
  let '(id, a, b, c, d) := x in let '(id', a', b', c', d') := x' in id' = rho id /\ a = a' /\ b = b' /\ c = c' /\ d = d'.
Lemma not_named1 n a : ~ List.In (a_name a) element_names -> List.In n element_names -> is a n = false.
Proof. intros H1 H2. unfold is. apply String.eqb_neq. intros H3. rewrite H3 in H1. exact (H1 H2). Qed.
Ltac others1 H := rewrite !(fun n K => not_named1 n _ H K) by (vm_compute; tauto).
Lemma len_rho v : (String.length (rho v) =? 0) = (String.length v =? 0).
Proof. pose proof (rho_nil v) as H. destruct (rho v), v; cbn in *; congruence. Qed.
Lemma re_maskF l l' : ra l l' -> rv eq (maskF l) (maskF l').
Proof.
  intros Hl. unfold maskF. eapply rv_bind.
  - apply (re_attrs Vmask); [| | | |exact Hl|]; [..|split; [symmetry; exact Hnil|repeat split]].
    + intros [[[[id x] y] w] h] [[[[id' x'] y'] w'] h'] v (-> & <- & <- & <- & <-). unfold maskAttr. cbn [is a_name a_val String.eqb Ascii.eqb Bool.eqb].
      change (is (mkAttr "id" v) "id") with true. change (is (mkAttr "id" (rho v)) "id") with true. cbv iota.
      rewrite len_rho. apply rv_if; [apply rv_raise|]. apply rv_ret. repeat split.
    + intros [[[[id x] y] w] h] [[[[id' x'] y'] w'] h'] v (-> & <- & <- & <- & <-). unfold maskAttr.
      repeat match goal with |- context [is (mkAttr "href" ?u) ?n] => change (is (mkAttr "href" u) n) with false end. cbv iota. apply rv_ret. repeat split.
    + intros [[[[id x] y] w] h] [[[[id' x'] y'] w'] h'] n v (-> & <- & <- & <- & <-) Hn _. unfold maskAttr. cbn [a_val].
      assert (K : is (mkAttr n v) "id" = false) by (apply String.eqb_neq; exact Hn). rewrite K.
      repeat (apply rv_if; [apply rv_bindE; [apply re_cParseUnit|intros u; apply rv_ret; repeat split]|]). apply rv_ret. repeat split.
    + intros [[[[id x] y] w] h] a c Ha. unfold maskAttr. others1 Ha. reflexivity.
  - intros [[[[id x] y] w] h] [[[[id' x'] y'] w'] h'] (-> & <- & <- & <- & <-). apply rv_modify. rec2.
    change (Some (mkMask (rho id) x y w h [] identity)) with (option_map (ren_mask rho) (Some (mkMask id x y w h [] identity))). constructor; auto.
Qed.
Lemma re_onGrad f : self (onGrad f).
Proof.
  recase. unfold onGrad. cbn. destruct g as [p|]; [|constructor; auto]. destruct (nth_error gh p); [|constructor; auto]. split; [reflexivity|]. constructor; auto.
Qed.
Lemma re_registerGrad id : rv eq (registerGrad id) (registerGrad (rho id)).
Proof.
  recs. unfold registerGrad. cbn [c_grad c_svg sv_grads]. destruct g as [p|]; [|constructor; auto; constructor; auto]. split; [reflexivity|].
  rewrite put_key. constructor; auto. constructor; auto.
Qed.
Lemma re_theGrad : self theGrad.
Proof. recase. unfold theGrad. cbn. destruct g as [p|]; [|constructor; auto]. destruct (idx gh p); repeat split; auto. Qed.
Lemma re_newGrad : self newGrad.
Proof. apply rv_modify. intros c1 c2 Hc. pose proof (re_vb _ _ Hc) as Hv. rewrite Hv. destruct Hc. cbn. constructor; auto. Qed.
Lemma re_inGrad b : self (modify (c_set_inGrad (E := E) b)). Proof. apply rv_modify. recase. constructor; auto. Qed.
Lemma re_readGradAttr a : self (readGradAttr a).
Proof. unfold readGradAttr. cbv zeta. repeat (step1 || apply re_parseTransform || apply re_onGrad). Qed.
Ltac isn := repeat match goal with |- context [is (mkAttr ?m ?u) ?n] => change (is (mkAttr m u) n) with (String.eqb m n) end; cbn [String.eqb Ascii.eqb Bool.eqb].
Lemma re_linearGradientF l l' : ra l l' -> rv eq (linearGradientF l) (linearGradientF l').
Proof.
  intros Hl. unfold linearGradientF. apply rv_bindE; [apply re_inGrad|]. intros _. apply rv_bindE; [apply re_newGrad|]. intros _. apply rv_bindE.
  - apply (re_attrs eq); [| | | |exact Hl|reflexivity].
    + intros [[[x y] w] h] x' v <-. unfold linAttr. isn. cbn [a_val]. apply rv_bindE; [apply re_registerGrad|]. intros _. step1.
    + intros [[[x y] w] h] x' v <-. unfold linAttr, readGradAttr. isn. cbn [a_name String.eqb Ascii.eqb Bool.eqb]. repeat step1.
    + intros [[[x y] w] h] x' n v <- Hn _. unfold linAttr. assert (K : is (mkAttr n v) "id" = false) by (apply String.eqb_neq; exact Hn). rewrite K.
      repeat (step1 || apply re_readGradAttr).
    + intros [[[x y] w] h] a c Ha. unfold linAttr, readGradAttr. others1 Ha. unfold is in *.
      rewrite !(fun n K => not_named1 n a Ha K : String.eqb (a_name a) n = false) by (vm_compute; tauto). reflexivity.
  - intros [[[x y] w] h]. apply rv_bindE; [apply re_theGrad|]. intros g. repeat (step1 || apply re_onGrad).
Qed.
Lemma re_radialGradientF l l' : ra l l' -> rv eq (radialGradientF l) (radialGradientF l').
Proof.
  intros Hl. unfold radialGradientF. apply rv_bindE; [apply re_inGrad|]. intros _. apply rv_bindE; [apply re_newGrad|]. intros _. apply rv_bindE.
  - apply (re_attrs eq); [| | | |exact Hl|reflexivity].
    + intros [[[[[x y] w] h] r] fr] x' v <-. unfold radAttr. isn. cbn [a_val]. apply rv_bindE; [apply re_registerGrad|]. intros _. step1.
    + intros [[[[[x y] w] h] r] fr] x' v <-. unfold radAttr, readGradAttr. isn. cbn [a_name String.eqb Ascii.eqb Bool.eqb]. repeat step1.
    + intros [[[[[x y] w] h] r] fr] x' n v <- Hn _. unfold radAttr. assert (K : is (mkAttr n v) "id" = false) by (apply String.eqb_neq; exact Hn). rewrite K.
      repeat (step1 || apply re_readGradAttr).
    + intros [[[[[x y] w] h] r] fr] a c Ha. unfold radAttr, readGradAttr. others1 Ha. unfold is in *.
      rewrite !(fun n K => not_named1 n a Ha K : String.eqb (a_name a) n = false) by (vm_compute; tauto). reflexivity.
  - intros [[[[[x y] w] h] r] fr]. cbv zeta. apply rv_bindE; [apply re_theGrad|]. intros g. repeat (step1 || apply re_onGrad).
Qed.
Lemma kvs_ren ds ds' : Forall2 (ren_decl rho) ds ds' ->
  filter (fun d => String.eqb (fst d) "stop-color" || String.eqb (fst d) "stop-opacity") ds = filter (fun d => String.eqb (fst d) "stop-color" || String.eqb (fst d) "stop-opacity") ds'.
Proof.
  induction 1 as [|d d' l l' Hd _ IH]; [reflexivity|]. cbn [filter]. rewrite IH. destruct Hd as [k v Hk|k v v' Hk Hv]; [reflexivity|].
  cbn [fst]. destruct Hk as [<-|[<-|[<-|[]]]]; reflexivity.
Qed.
Lemma find_ren l l' : ra l l' -> stop_kvs (E := E) (findStyle l) = stop_kvs (E := E) (findStyle l').
Proof.
  induction 1 as [|a a' l l' Ha _ IH]; [reflexivity|]. cbn [findStyle].
  destruct Ha as [v|v|n v Hn Hh _|n v v' Hn _|n v v' ds ds' Hn Hv Hv' Hd]; cbn [a_name a_val].
  - exact IH. - exact IH. - destruct (String.eqb n "style"); [reflexivity|exact IH].
  - destruct (String.eqb n "style") eqn:K; [|exact IH]. apply String.eqb_eq in K. subst n. vm_compute in Hn. intuition discriminate.
  - destruct (String.eqb n "style"); [|exact IH]. apply pair_inj. unfold stop_kvs. rewrite !filter_pairs, (style_kvs _ _ Hv), (style_kvs _ _ Hv'). apply kvs_ren, Hd.
Qed.
Lemma re_stopF l l' : ra l l' -> rv eq (stopF l) (stopF l').
Proof.
  intros Hl. unfold stopF. apply rv_bindE; [apply rv_gets; recase; reflexivity|]. intros []; [|step1].
  assert (Hself : forall x a, self (stopAttr x a)) by (intros x a; unfold stopAttr; repeat step1).
  apply rv_bindE; [|intros s; apply re_onGrad].
  rewrite !append_kvs, (find_ren _ _ Hl). eapply rv_ext; [intros c; apply foldM_app|intros c; apply foldM_app|].
  apply rv_bindE; [|intros x; apply rv_foldM; exact Hself].
  apply re_attrs0; [exact Hself| |exact Hl]. intros x a c Ha. unfold stopAttr. others Ha. reflexivity.
Qed.
Lemma re_drawFunc fuel name df : drawFunc (E := E) fuel name = Some df -> forall l l', ra l l' -> rv eq (df l) (df l').
Proof.
  unfold drawFunc. intros H l l' Hl.
  repeat match type of H with (if ?b then _ else _) = _ => destruct b; [injection H as <-|] end; try discriminate;
    auto using re_svgF, re_lineF, re_stopF, re_rectF, re_circleF, re_polylineF, re_polygonF, re_pathF, re_linearGradientF, re_radialGradientF, re_maskF.
  - unfold gF. step1.
  - unfold descF. apply rv_bindE; [apply rv_modify; recase; constructor; auto|]. intros _. svg1.
  - unfold defsF. apply rv_modify; recase; constructor; auto.
  - unfold titleF. apply rv_bindE; [apply rv_modify; recase; constructor; auto|]. intros _. svg1.
Qed.
Lemma re_useLoop draw ds ds' : (forall t df, draw t = Some df -> forall l l', ra l l' -> rv eq (df l) (df l')) ->
  Forall2 Rdef ds ds' -> rv eq (useLoop draw ds) (useLoop draw ds').
Proof.
  intros Hd. induction 1 as [|d d' ds ds' (H1 & H2 & H3) _ IH]; cbn [useLoop]; [step1|]. rewrite <- H2.
  apply rv_if. { apply rv_bindE; [apply re_popStyle|]. intros _. exact IH. }
  apply rv_bindE; [apply re_pushStyle, H3|]. intros _. destruct (draw (d_tag d)) as [df|] eqn:Hdr; [|apply re_handleError].
  apply rv_bindE; [eapply Hd; eassumption|]. intros _. apply rv_bindE; [|intros _; exact IH]. apply rv_if; [apply re_popStyle|step1].
Qed.
Lemma mget_defs id (m m' : smap (list definition)) : Forall2 Rdefs m m' ->
  match mget id m, mget (rho id) m' with Some a, Some b => Forall2 Rdef a b | None, None => True | _, _ => False end.
Proof.
  induction 1 as [|[k x] [k' x'] m m' [H1 H2] _ IH]; cbn; [exact I|]. cbn in H1, H2. subst k'. rewrite rho_eqb. destruct (String.eqb id k); [exact H2|exact IH].
Qed.
(** what href may hold *)
Definition Rhref (h h' : string) : Prop := (exists x, h = ("#" ++ x)%string /\ h' = ("#" ++ rho x)%string) \/ h = h' /\ String.prefix "#" h = false.
Definition Vuse (x x' : string * F E * F E) : Prop := let '(h, a, b) := x in let '(h', a', b') := x' in Rhref h h' /\ a = a' /\ b = b'.
Lemma re_useF fuel : forall l l', ra l l' -> rv eq (useF fuel l) (useF fuel l').
Proof.
  induction fuel as [|fuel IH]; intros l l' Hl; cbn [useF]; [apply rv_nofuel|]. eapply rv_bind.
  - apply (re_attrs Vuse); [| | | |exact Hl|]; [..|repeat split; right; split; reflexivity].
    + intros [[h x] y] [[h' x'] y'] v (Hh & <- & <-). unfold useAttr. isn. apply rv_ret. repeat split; exact Hh.
    + intros [[h x] y] [[h' x'] y'] v (Hh & <- & <-). unfold useAttr. isn. apply rv_ret. repeat split. left. exists v. split; reflexivity.
    + intros [[h x] y] [[h' x'] y'] n v (Hh & <- & <-) Hn Hv. unfold useAttr. cbn [a_val].
      destruct (is (mkAttr n v) "href") eqn:K; [apply String.eqb_eq in K; cbn in K; apply rv_ret; repeat split; right; split; [reflexivity|exact (Hv K)]|].
      repeat (apply rv_if; [apply rv_bindE; [apply re_cParseUnit|intros u; apply rv_ret; repeat split; exact Hh]|]). apply rv_ret. repeat split; exact Hh.
    + intros [[h x] y] a c Ha. unfold useAttr. others1 Ha. reflexivity.
  - intros [[h x] y] [[h' x'] y'] (Hh & <- & <-). apply rv_bindE; [apply rv_modify; recase; constructor; auto|]. intros _.
    apply rv_deferred; [|recase; constructor; auto].
    destruct Hh as [(v & -> & ->)|[<- Hp]].
    2:{ apply rv_if; [apply rv_raise|]. unfold hasPrefix. rewrite Hp. apply rv_raise. }
    rewrite !hasPrefix_app. change (String.eqb ("#" ++ v) "") with false. change (String.eqb ("#" ++ rho v) "") with false. cbn [negb].
    rewrite !(slice_tail "#") by reflexivity.
    intros c1 c2 Hc. unfold bind, lift, gets.
    assert (Hm := Hc). destruct Hm as [pc s1 s2 t g gh b1 b2 b3 b4 b5 d1 d2 m [vb ti de ps tr mk w ht gr e1 e2 hp P3] H3].
    cbn [c_svg sv_defs]. pose proof (mget_defs v _ _ P3) as K.
    destruct (mget v e1) as [x1|], (mget (rho v) e2) as [x2|]; try contradiction; [|cbn; auto].
    refine (re_useLoop _ _ _ _ K _ _ Hc). intros tg df Hdf.
    destruct (String.eqb tg "use"); [injection Hdf as <-; apply IH|]. exact (re_drawFunc _ _ _ Hdf).
Qed.
Lemma re_drawFuncs fuel name df : drawFuncs (E := E) fuel name = Some df -> forall l l', ra l l' -> rv eq (df l) (df l').
Proof. unfold drawFuncs. destruct (String.eqb name "use"); intros H; [injection H as <-; apply re_useF|apply (re_drawFunc _ _ _ H)]. Qed.
Lemma attrID_ren l l' : ra l l' -> attrID l' = rho (attrID l).
Proof.
  intros H. unfold attrID.
  assert (G : forall x, fold_left (fun id a => if is a "id" then a_val a else id) l' (rho x) = rho (fold_left (fun id a => if is a "id" then a_val a else id) l x)); [|rewrite <- Hnil at 1; apply G].
  induction H as [|a a' l l' Ha _ IH]; intros x; cbn [fold_left]; [reflexivity|].
  destruct Ha as [v|v|n v Hn Hh _|n v v' Hn _|n v v' ds ds' Hn _ _ _].
  - apply IH. - apply IH.
  - assert (K : is (mkAttr n v) "id" = false) by (apply String.eqb_neq; exact Hn). rewrite K. apply IH.
  - assert (K : forall u, is (mkAttr n u) "id" = false) by (intros u; apply not_named1; [apply names_apart; left; exact Hn|vm_compute; tauto]). rewrite !K. apply IH.
  - assert (K : forall u, is (mkAttr n u) "id" = false) by (intros u; apply not_named1; [apply names_apart; right; exact Hn|vm_compute; tauto]). rewrite !K. apply IH.
Qed.
Lemma re_flushDefs : self flushDefs.
Proof.
  apply rv_modify. recs. cbn.
  assert (H3' := H3). destruct H3 as [|d d' l l' (K1 & K2 & K3) K4]; [constructor; auto; constructor; auto|].
  constructor; auto. constructor; auto. rewrite K1.
  unfold mput. constructor; [split; [reflexivity|exact H3']|]. clear -P3 Hinj.
  induction P3 as [|[k x] [k' x'] m m' [J1 J2] _ IH]; [constructor|]. cbn in J1, J2. subst k'. cbn [filter fst]. rewrite rho_eqb.
  destruct (String.eqb (d_id d) k); cbn [negb]; [exact IH|]. constructor; [split; [reflexivity|exact J2]|exact IH].
Qed.
Lemma re_collectPath : self collectPath.
Proof.
  unfold collectPath. apply rv_get. recase. cbn [c_pc c_inMask c_mask].
  destruct (pc_path pc) as [|o q]; [step1|]. apply rv_bindE; [|intros _; apply re_liftP]. destruct b5.
  - destruct mo as [m1|]; cbn [option_map]; [|step1].
    apply rv_bindE; [apply re_topStyle|]. intros a. apply rv_modify. rec2.
    change (Some (mkMask (mk_id (ren_mask rho m1)) (mk_x (ren_mask rho m1)) (mk_y (ren_mask rho m1)) (mk_w (ren_mask rho m1)) (mk_h (ren_mask rho m1))
      (mk_paths (ren_mask rho m1) ++ [mkSvgPath (o :: q) a]) (mk_transform (ren_mask rho m1))))
      with (option_map (ren_mask rho) (Some (mkMask (mk_id m1) (mk_x m1) (mk_y m1) (mk_w m1) (mk_h m1) (mk_paths m1 ++ [mkSvgPath (o :: q) a]) (mk_transform m1)))).
    constructor; auto.
  - apply rv_bindE; [apply re_topStyle|]. intros a. svg1.
Qed.
Lemma re_start fuel name l l' : ra l l' -> rv eq (readStartElement fuel name l) (readStartElement fuel name l').
Proof.
  intros Hl. unfold readStartElement. apply rv_get. recase. cbn [c_inGrad c_inDefs]. cbv zeta.
  apply rv_if.
  - rewrite (attrID_ren _ _ Hl), rho_nil. apply rv_bindE; [apply rv_if; [apply re_flushDefs|step1]|]. intros _. apply rv_modify. rec2. constructor; auto.
    apply Forall2_app; [assumption|]. constructor; [repeat split; exact Hl|constructor].
  - destruct (drawFuncs fuel name) as [df|] eqn:Hdf; [|apply re_handleError]. apply rv_bindE; [apply rv_attempt, (re_drawFuncs _ _ _ Hdf), Hl|].
    intros err. apply rv_bindE; [apply re_collectPath|]. intros _. repeat step1.
Qed.
Lemma re_end name : self (endElement name).
Proof.
  unfold endElement. apply rv_bindE; [apply re_popStyle|]. intros _.
  apply rv_if. { apply rv_bindE; [apply rv_gets; rec2; reflexivity|]. intros []; [|step1]. apply rv_modify. rec2. constructor; auto.
    apply Forall2_app; [assumption|]. constructor; [repeat split; [symmetry; exact Hnil|constructor]|constructor]. }
  apply rv_if.
  { intros c1 c2 Hc. unfold bind, gets. revert c1 c2 Hc. recs. cbn [c_mask].
    destruct mo as [m1|]; cbn [option_map].
    - cbn. split; [reflexivity|]. rewrite put_mask. change (@None (svgMask E)) with (option_map (ren_mask rho) (@None (svgMask E))) at 2. constructor; auto. constructor; auto.
    - cbn. split; [reflexivity|]. change (@None (svgMask E)) with (option_map (ren_mask rho) (@None (svgMask E))) at 2. constructor; auto. constructor; auto. }
  apply rv_if; [apply rv_modify; rec2; constructor; auto|]. apply rv_if; [apply rv_modify; rec2; constructor; auto|].
  apply rv_if. { apply rv_bindE; [apply re_flushDefs|]. intros _. apply rv_modify; rec2; constructor; auto. }
  apply rv_if; [apply rv_modify; rec2; constructor; auto|step1].
Qed.
Lemma re_chars s : self (charData s).
Proof.
  unfold charData. apply rv_get. recs.
  cbn [c_inTitle c_inDesc c_svg sv_titles sv_descs]. apply rv_bindE; [|intros _]; (apply rv_if; [|step1]); (apply rv_bindE; [apply rv_lift|]; intros x; svg1).
Qed.
Lemma re_token fuel t t' : ren_token rho t t' -> rv eq (stepToken fuel t) (stepToken fuel t').
Proof.
  intros [name l l' Hl|name|s|]; cbn [stepToken].
  - apply rv_bindE; [apply re_pushStyle, Hl|]. intros _. apply re_start, Hl.
  - apply re_end. - apply re_chars. - step1.
Qed.
Lemma re_tokens fuel toks toks' : Forall2 (ren_token rho) toks toks' -> rv eq (mapM (stepToken fuel) toks) (mapM (stepToken fuel) toks').
Proof. induction 1; cbn [mapM]; [step1|]. apply rv_bindE; [apply re_token; assumption|]. intros _. assumption. Qed.
Lemma seen_ren toks toks' : Forall2 (ren_token rho) toks toks' -> seenTag toks = seenTag toks'.
Proof. induction 1 as [|t t' l l' H _ IH]; [reflexivity|]. unfold seenTag in *. cbn [existsb]. rewrite IH. destruct H; reflexivity. Qed.
Lemma parse_ren fuel mode toks toks' tm : Forall2 (ren_token rho) toks toks' ->
  alike Rsvg (parse fuel mode toks tm) (parse fuel mode toks' tm).
Proof.
  intros Ht. pose proof (re_tokens fuel _ _ Ht (cursor0 mode) (cursor0 mode)) as K.
  assert (H0 : Re (cursor0 mode) (cursor0 mode)).
  { unfold cursor0, svg0. change (@None (svgMask E)) with (option_map (ren_mask rho) (@None (svgMask E))) at 2. constructor; [|constructor].
    change [[]] with (map (map rho) [[]]) at 2. change (@nil (string * svgMask E)) with (map rkm []) at 2. change (@nil (string * nat)) with (map (@rkey nat) []) at 2.
    constructor. constructor. }
  specialize (K H0). unfold parse. rewrite <- (seen_ren _ _ Ht).
  destruct (mapM (stepToken fuel) toks (cursor0 mode)) as [c1 [a|e| |]], (mapM (stepToken fuel) toks' (cursor0 mode)) as [c2 [b|e'| |]]; try contradiction.
  - destruct K as [_ K]. destruct K. destruct tm; [destruct (seenTag toks)|]; cbn; auto.
  - destruct K as [<- K]. destruct K. cbn. auto.
  - exact I.
  - exact I.
Qed.
Lemma Rsvg_renamed s s' : Rsvg s s' -> renamed rho s s'.
Proof.
  intros [vb ti de ps tr mk w h gr e1 e2 hp P3]. repeat split; cbn.
  - intros id. exact (get_mask id mk).
  - intros id'. clear. induction mk as [|[k m] mk IH]; cbn; [congruence|]. destruct (String.eqb id' (rho k)) eqn:H; [|exact IH]. apply String.eqb_eq in H. intros _. exists k. exact H.
  - intros p. unfold path_masks. cbn. apply read_rho.
Qed.

(** ** drawing *)
Lemma options_ren s s' opts : renamed rho s s' -> options s opts = options (E := E) s' opts.
Proof.
  intros H. destruct H as (Hv & _). unfold options. generalize (mkRO (fnum E 1) (mkM (fnum E 0) (fnum E 0) (fnum E 0) (fnum E 0) (fnum E 0) (fnum E 0))).
  induction opts as [|o l IH]; intros r; [reflexivity|]. cbn [fold_left]. rewrite IH. f_equal. destruct o; [reflexivity|]. cbn. rewrite Hv. reflexivity.
Qed.
Lemma omap_ext {A B} (f g : A -> outcome (list B)) l : (forall a, f a = g a) -> omap f l = omap g l.
Proof. intros H. induction l as [|a l IH]; [reflexivity|]. cbn. rewrite H. destruct (g a); cbn; try reflexivity. rewrite IH. reflexivity. Qed.
Lemma gg_ren s s' : renamed rho s s' -> forall fuel sp m o, ggDrawTransformed fuel s sp m o = ggDrawTransformed (E := E) fuel s' sp m o.
Proof.
  intros (_ & _ & _ & _ & _ & _ & _ & Hm & _ & Hp). induction fuel as [|fuel IH]; intros sp m o; [reflexivity|]. cbn [ggDrawTransformed].
  change (slice_read (sv_mheap s) (st_masks (sp_style sp))) with (path_masks s sp).
  change (slice_read (sv_mheap s') (st_masks (sp_style sp))) with (path_masks s' sp).
  rewrite Hp, <- map_rev. destruct (rev (path_masks s sp)) as [|id r]; [reflexivity|]. cbn [map]. rewrite Hm.
  destruct (mget id (sv_masks s)) as [k|]; [|reflexivity]. cbn [option_map]. change (mk_paths (ren_mask rho k)) with (mk_paths k).
  rewrite (omap_ext _ (fun q => ggDrawTransformed fuel s' q m (fnum E 1))) by (intros q; apply IH). reflexivity.
Qed.
Lemma drawn_ren s s' : renamed rho s s' ->
  (forall ext opts, rxDrawSvg ext s opts = rxDrawSvg (E := E) ext s' opts)
  /\ (forall opts, d2DrawSvg s opts = d2DrawSvg (E := E) s' opts)
  /\ (forall fuel opts, ggDrawSvg fuel s opts = ggDrawSvg (E := E) fuel s' opts).
Proof.
  intros H. assert (Hp : sv_paths s = sv_paths s') by apply H. split; [|split].
  - intros ext opts. unfold rxDrawSvg. rewrite (options_ren _ _ _ H), Hp. reflexivity.
  - intros opts. unfold d2DrawSvg. rewrite (options_ren _ _ _ H), Hp. reflexivity.
  - intros fuel opts. unfold ggDrawSvg. rewrite (options_ren _ _ _ H), Hp. apply omap_ext. intros a. apply gg_ren, H.
Qed.
End Rename.

Lemma renaming (E : Env) rho fuel mode toks toks' tm : (forall x y, rho x = rho y -> x = y) -> rho EmptyString = EmptyString ->
  Forall2 (ren_token rho) toks toks' -> alike (E := E) (renamed rho) (parse fuel mode toks tm) (parse fuel mode toks' tm).
Proof. intros H1 H2 Ht. eapply alike_mono; [|apply (parse_ren rho H1 H2), Ht]. apply Rsvg_renamed, H1. Qed.
Lemma renamed_drawn (E : Env) rho (s s' : svg E) : renamed rho s s' ->
  (forall ext opts, rxDrawSvg ext s opts = rxDrawSvg ext s' opts) /\ (forall opts, d2DrawSvg s opts = d2DrawSvg s' opts)
  /\ (forall fuel opts, ggDrawSvg fuel s opts = ggDrawSvg fuel s' opts).
Proof. apply drawn_ren. Qed.
Lemma renaming_drawn (E : Env) rho fuel mode toks toks' tm s e log : (forall x y, rho x = rho y -> x = y) -> rho EmptyString = EmptyString ->
  Forall2 (ren_token rho) toks toks' -> parse (E := E) fuel mode toks tm = PSvg s e log ->
  exists s', parse fuel mode toks' tm = PSvg s' e log /\ (forall ext opts, rxDrawSvg ext s opts = rxDrawSvg ext s' opts)
  /\ (forall opts, d2DrawSvg s opts = d2DrawSvg s' opts) /\ (forall fuel' opts, ggDrawSvg fuel' s opts = ggDrawSvg fuel' s' opts).
Proof.
  intros H1 H2 Ht Hs. pose proof (renaming E rho fuel mode toks toks' tm H1 H2 Ht) as K. rewrite Hs in K.
  destruct (parse fuel mode toks' tm) as [|s' e' log'| |]; try contradiction. destruct K as (K & <- & <-). exists s'. split; [reflexivity|]. apply (renamed_drawn E rho), K.
Qed.

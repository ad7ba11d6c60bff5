(** * ProofsPanic2: styles, stops, elements and documents that panic (C76) *)
From Coq Require Import ZArith Lia.
From Verif Require Import ProofsGrad ProofsStr ProofsUnit ProofsColor ProofsStyle ProofsStyle2 ProofsAttrs ProofsMistake ProofsMistake2 ProofsMistake3 ProofsTrans ProofsTok ProofsFuel ProofsData ProofsEnd ProofsCalm.
From Verif Require Export ProofsPanic.
From Verif Require Import ProofsLocal ProofsValid SpecValid.
Local Open Scope go_scope.
Local Open Scope nat_scope.

(** ** The first thing that is wrong *)
Fixpoint fw {A} (R W : A -> Prop) (l : list A) : Prop := match l with [] => False | x :: l => W x \/ R x /\ fw R W l end.
Lemma fw_iff {A} (R W : A -> Prop) l : fw R W l <-> first_wrong R W l.
Proof.
  unfold first_wrong. induction l as [|x l IH]; cbn [fw].
  - split; [intros []|]. intros (pre & x & post & H & _). destruct pre; discriminate.
  - rewrite IH. split.
    + intros [H|[H (pre & y & post & -> & Hp & Hw)]]; [exists [], x, l; auto|]. exists (x :: pre), y, post. auto.
    + intros ([|z pre] & y & post & H & Hp & Hw); injection H as -> ->; [left; exact Hw|]. inversion Hp; subst. right. split; [assumption|]. exists pre, y, post. auto.
Qed.
Lemma fw_ext {A} (R W R' W' : A -> Prop) l : (forall x, List.In x l -> (R x <-> R' x) /\ (W x <-> W' x)) -> (fw R W l <-> fw R' W' l).
Proof.
  induction l as [|x l IH]; intros H; cbn [fw]; [tauto|]. destruct (H x (or_introl eq_refl)) as [H1 H2]. rewrite H1, H2, (IH (fun y Hy => H y (or_intror Hy))). tauto.
Qed.
Lemma fw_app {A} (R W : A -> Prop) a b : fw R W (a ++ b) <-> fw R W a \/ Forall R a /\ fw R W b.
Proof. induction a as [|x a IH]; cbn [app fw]; [split; [intros H; right; split; [constructor|exact H]|intros [[]|[_ H]]; exact H]|]. rewrite IH, Forall_cons_iff. tauto. Qed.
Lemma fw_map {A B} (g : A -> B) (R W : B -> Prop) l : fw R W (map g l) <-> fw (fun x => R (g x)) (fun x => W (g x)) l.
Proof. induction l as [|x l IH]; cbn [map fw]; [tauto|]. rewrite IH. tauto. Qed.
(** at most one thing for each member of a list *)
Lemma fw_some {A B} (g : A -> list B) (R W : B -> Prop) l : (forall x, g x = [] \/ exists y, g x = [y]) ->
  (fw R W (flat_map g l) <-> fw (fun x => Forall R (g x)) (fun x => Exists W (g x)) l).
Proof.
  intros H. induction l as [|x l IH]; cbn [flat_map fw]; [tauto|]. rewrite fw_app, IH. destruct (H x) as [->|(y & ->)]; cbn [fw].
  - rewrite Exists_nil. tauto.
  - rewrite Exists_cons, Exists_nil. tauto.
Qed.
Lemma filter_flat {A B} (p : B -> bool) (g : A -> list B) l : filter p (flat_map g l) = flat_map (fun x => filter p (g x)) l.
Proof. induction l as [|x l IH]; [reflexivity|]. cbn [flat_map]. rewrite filter_app, IH. reflexivity. Qed.
Lemma pieces_split d s : pieces d s = split1 d s.
Proof. induction s as [|c s IH]; [reflexivity|]. cbn [pieces split1]. rewrite IH. destruct (Ascii.eqb c d); reflexivity. Qed.

Section Panics.
Context {E : Env} (md : errorMode) (fuel kt : nat) (Hturns : turns (E := E) kt) (Hkt : kt <= fuel) (Hurl : lower_url E).
Notation F := (F E).
Notation cursor := (cursor E).
Notation C := (@C E).
Notation J := (ProofsLocal.J (E := E) md).
Notation acc := (ProofsValid.acc (E := E) md).

Definition pan f {A} (W : Prop) (m : C A) : Prop := forall n l c, J f n l c -> (snd (m c) = Panic <-> W).
Lemma pan_iff f {A} W W' (m : C A) : (W <-> W') -> pan f W m -> pan f W' m.
Proof. intros H K n l c Hc. rewrite (K n l c Hc). exact H. Qed.
Lemma pan_fn f {A} (m : C A) : fn m -> pan f False m.
Proof. intros H n l c _. specialize (H c). split; [intros K; rewrite K in H; exact H|tauto]. Qed.
Lemma pan_bind f f' {A B} P W W' (m : C A) (k : A -> C B) : acc f f' P m -> pan f W m -> (forall a, pan f' W' (k a)) -> pan f (W \/ P /\ W') (bind m k).
Proof.
  intros H H' K n l c Hc. destruct (H n l c Hc) as [(l1 & H1) H2]. specialize (H' n l c Hc). unfold bind. destruct (m c) as [c1 o]. cbn [fst snd] in *.
  rewrite <- H', <- H2. destruct o as [a|e| |]; cbn [snd].
  - rewrite (K a n l1 c1 H1). split; [intros Q; right; split; [eexists; reflexivity|exact Q]|]. intros [Q|[_ Q]]; [discriminate|exact Q].
  - split; [discriminate|intros [Q|[(x & Q) _]]; discriminate].
  - tauto.
  - split; [discriminate|intros [Q|[(x & Q) _]]; discriminate].
Qed.
Lemma pan_ret f {A} (a : A) : pan f False (ret a : C A).
Proof. intros n l c _. split; [discriminate|tauto]. Qed.
Lemma pan_fold f {X A} (R W : X -> Prop) (u : A -> X -> C A) xs : (forall a x, List.In x xs -> acc f f (R x) (u a x)) -> (forall a x, List.In x xs -> pan f (W x) (u a x)) ->
  forall a, pan f (fw R W xs) (foldM u a xs).
Proof.
  induction xs as [|x xs IH]; intros H K a; cbn [foldM fw]; [apply pan_ret|].
  apply (pan_bind f f); [apply H; left; reflexivity|apply K; left; reflexivity|]. intros b. apply IH; intros a' x' Hx; [apply H|apply K]; right; exact Hx.
Qed.
Lemma J_grads f n l c : J f n l c -> grads_valid c.
Proof. intros H id p Hg. exact (mget_forall (fun x => x < List.length (c_gheap c)) _ _ _ (j_grads _ _ _ _ _ H) Hg). Qed.
Lemma J_stack f n l c : J f n l c -> c_stack c <> [].
Proof. intros H Q. pose proof (j_stack _ _ _ _ _ H) as K. rewrite Q in K. discriminate. Qed.

(** ** Styles *)
Lemma pan_paint f v p (st : style E) (u : option (pattern E) -> style E) : all_chars is_ascii v = true -> pan f (panic_colour E v)
  (g <- readGradURL v p ;; match g with Some g => ret (u (Some (PGrad g))) | None => col <- lift (parseSVGColor (E := E) v) ;; ret (u (asPattern col)) end).
Proof.
  intros Ha n l c H. rewrite <- (colour_panic v Ha). split.
  - intros K. destruct (readGradURL_np v p c (J_grads _ _ _ _ H)) as (o & Ho). unfold bind at 1 in K. rewrite Ho in K. destruct o; [discriminate|].
    unfold bind, lift in K. destruct (parseSVGColor v); try discriminate. reflexivity.
  - intros K. pose proof (proj1 (proj1 (colour_panic v Ha) K)) as U. unfold readGradURL.
    assert (Hp : hasPrefix v "url(" = false) by (destruct (hasPrefix v "url(") eqn:Q; [rewrite (url_low Hurl v Ha Q) in U; discriminate|reflexivity]). rewrite Hp. cbn [andb].
    unfold bind, ret, lift. rewrite K. reflexivity.
Qed.
Lemma pan_styleAttr f st k v : all_chars is_ascii v = true -> pan f ((k = "fill"%string \/ k = "stroke"%string) /\ panic_colour E v) (readStyleAttr (E := E) st k v).
Proof.
  intros Ha. destruct (String.eqb_spec k "fill") as [->|N1].
  { apply (pan_iff f (panic_colour E v)); [tauto|]. exact (pan_paint f v _ st (fun p => s_set_filler p st) Ha). }
  destruct (String.eqb_spec k "stroke") as [->|N2].
  { apply (pan_iff f (panic_colour E v)); [tauto|]. exact (pan_paint f v _ st (fun p => s_set_liner p st) Ha). }
  intros n l c H. split; [|tauto]. intros K. exfalso. revert K. apply np_readStyleAttr; [tauto|]. split; [exact (J_stack _ _ _ _ H)|exact (J_grads _ _ _ _ H)].
Qed.
Lemma pan_pair f st s : all_chars is_ascii s = true -> pan f (text_panics E s) (stylePair (E := E) st s).
Proof.
  intros Ha. unfold stylePair. pose proof (fun k v => decl_iff (E := E) s k v Ha) as D.
  destruct (split1 ":" s) as [|n [|t q]] eqn:Hs.
  - apply (pan_iff f False); [|apply pan_ret]. split; [tauto|]. intros (k & v & H & _). apply D in H as (n & t & q & H & _). discriminate.
  - apply (pan_iff f False); [|apply pan_ret]. split; [tauto|]. intros (k & v & H & _). apply D in H as (n' & t & q & H & _). discriminate.
  - eapply pan_iff; [|apply pan_styleAttr].
    + split.
      * intros H. exists (trimSpace (toLower E n)), (trimSpace t). split; [|exact H]. apply D. exists n, t, q. auto.
      * intros (k & v & K & H). apply D in K as (n' & t' & q' & K & -> & ->). injection K as <- <- <-. exact H.
    + apply trim_ascii. pose proof (split_ascii ":" s Ha) as K. rewrite Hs in K. inversion K as [|? ? _ K']; subst. inversion K'; assumption.
Qed.
Lemma texts_eq attrs : asciis attrs -> stylePairs (E := E) attrs = texts_of attrs.
Proof.
  unfold stylePairs, texts_of, asciis. induction 1 as [|a attrs [A _] _ IH]; [reflexivity|]. cbn [flat_map]. rewrite IH, (toLower_low E _ A). destruct (String.eqb (low_case (a_name a)) "style"); [rewrite (pieces_split ";" (a_val a))|]; reflexivity.
Qed.
Lemma texts_ascii attrs s : asciis attrs -> List.In s (texts_of attrs) -> all_chars is_ascii s = true.
Proof.
  intros Ha Hi. unfold texts_of in Hi. apply in_flat_map in Hi as (a & H1 & H2). unfold asciis in Ha. rewrite Forall_forall in Ha. destruct (Ha a H1) as [A1 A2].
  destruct (String.eqb (low_case (a_name a)) "style").
  - rewrite (pieces_split ";") in H2. apply split_in in H2 as (x & y & Ex & _). rewrite Ex in A2. apply chars_app in A2 as [_ A2]. apply chars_app in A2. apply A2.
  - destruct H2 as [<-|[]]. rewrite !all_chars_app, A1, A2. reflexivity.
Qed.
Lemma acc_texts f attrs : asciis attrs -> acc f f (Forall (right_text E md) (texts_of attrs)) (pushed (E := E) attrs).
Proof.
  intros Ha. unfold pushed. rewrite (texts_eq attrs Ha). apply acc_r; [apply acc_top|]. intros top. apply acc_fold. intros st s Hs. apply (acc_pair md fuel kt Hkt Hurl). exact (texts_ascii attrs s Ha Hs).
Qed.
Lemma texts_right attrs : asciis attrs -> (Forall (right_text E md) (texts_of attrs) <-> decls_ok (E := E) md attrs).
Proof.
  intros Ha. pose proof (J_canon (E := E) md (false, false)) as Hc. rewrite <- (proj2 (acc_texts _ attrs Ha _ _ _ Hc)). exact (proj2 (acc_pushed md fuel kt Hkt Hurl _ attrs Ha _ _ _ Hc)).
Qed.
Lemma pan_pushed f attrs : asciis attrs -> pan f (fw (right_text E md) (text_panics E) (texts_of attrs)) (pushed (E := E) attrs).
Proof.
  intros Ha. unfold pushed. rewrite (texts_eq attrs Ha). set (W := fw (right_text E md) (text_panics E) (texts_of attrs)). apply (pan_iff f (False \/ True /\ W)); [tauto|]. apply (pan_bind f f); [apply acc_top| |].
  - intros n l c H. unfold topStyle. pose proof (J_stack _ _ _ _ H) as S. destruct (c_stack c); [congruence|]. split; [discriminate|tauto].
  - intros top. apply pan_fold; intros st s Hs; [apply (acc_pair md fuel kt Hkt Hurl)|apply pan_pair]; exact (texts_ascii attrs s Ha Hs).
Qed.

(** ** Stops *)
Definition stop_ok (a : attr) : Prop := (a_name a = "offset"%string -> valid_fraction E (a_val a)) /\ (a_name a = "stop-color"%string -> valid_colour E (a_val a)) /\ (a_name a = "stop-opacity"%string -> valid_length E (a_val a)).
Definition stop_pan (a : attr) : Prop := a_name a = "stop-color"%string /\ panic_colour E (a_val a).
Lemma pan_stopAttr f s a : all_chars is_ascii (a_val a) = true -> acc f f (stop_ok a) (stopAttr (E := E) s a) /\ pan f (stop_pan a) (stopAttr (E := E) s a).
Proof.
  intros Hi. unfold stop_ok, stop_pan, stopAttr.
  unfold is at 1 4. destruct (String.eqb_spec (a_name a) "offset") as [He|N1].
  { split.
    - apply (acc_iff _ _ _ (valid_fraction E (a_val a))); [rewrite He; intuition discriminate|]. apply acc_l; [apply acc_lift, fraction_iff, Hi|]. intros. apply acc_ret. exact I.
    - apply (pan_iff f False); [rewrite He; intuition discriminate|]. apply pan_fn, fn_bind; [apply fn_lift, fine_readFraction|]. intros. apply fn_ret. }
  unfold is at 1 3. destruct (String.eqb_spec (a_name a) "stop-color") as [He|N2].
  { split.
    - apply (acc_iff _ _ _ (valid_colour E (a_val a))); [rewrite He; intuition discriminate|]. apply acc_l; [apply acc_lift, colour_iff, Hi|]. intros. apply acc_ret. exact I.
    - intros n l c _. rewrite <- (colour_panic _ Hi). unfold bind, lift. destruct (parseSVGColor (a_val a)); cbn; intuition discriminate. }
  unfold is at 1 2. destruct (String.eqb_spec (a_name a) "stop-opacity") as [He|N3].
  { split.
    - apply (acc_iff _ _ _ (valid_length E (a_val a))); [rewrite He; intuition discriminate|]. apply acc_l; [apply acc_float, Hi|]. intros. apply acc_ret. exact I.
    - apply (pan_iff f False); [rewrite He; intuition discriminate|]. apply pan_fn, fn_bind; [apply fn_lift, fine_parseBasicFloat|]. intros. apply fn_ret. }
  split; [apply acc_ret; tauto|]. apply (pan_iff f False); [tauto|]. apply pan_ret.
Qed.
(** what a part of the attribute style comes to *)
Definition kv_of (s : string) : list attr :=
  filter (fun a => existsb (String.eqb (a_name a)) ["stop-color"; "stop-opacity"]%string)
    (match cut1 ":" s with Some (k, v) => [mkAttr (toLower E (trimSpace k)) (trimSpace v)] | None => [] end).
Lemma kv_gives s k v : all_chars is_ascii s = true -> (stop_gives (Datatypes.inr s) k v <-> List.In (mkAttr k v) (kv_of s)).
Proof.
  intros A. unfold kv_of, stop_gives. rewrite filter_In. cbn [a_name existsb]. rewrite orb_false_r, orb_true_iff, !String.eqb_eq. split.
  - intros (n & t & k' & Es & Hl & Pn & Pt & -> & H). split; [|exact H]. rewrite (proj2 (cut_iff s n t) (conj Es Hl)). left.
    rewrite (padded_trim _ _ Pn), (padded_trim _ _ Pt), (toLower_low E _ (padded_both _ _ Pn)). reflexivity.
  - intros [Hi H]. destruct (cut1 ":" s) as [[n t]|] eqn:Hc; [|destruct Hi]. apply cut_iff in Hc as [Es Hl]. destruct Hi as [Q|[]]. rewrite Es in A. apply chars_app in A as [A1 A2]. apply chars_app in A2 as [_ A2].
    rewrite (toLower_low E _ (trim_ascii n A1)) in Q. injection Q as <- <-. exists n, t, (trimSpace n). pose proof (padded_ex n A1). pose proof (padded_ex t A2). auto 9.
Qed.
Lemma kv_one s : kv_of s = [] \/ exists a, kv_of s = [a].
Proof. unfold kv_of. destruct (cut1 ":" s) as [[n t]|]; [|left; reflexivity]. cbn [filter]. destruct (existsb _ _); eauto. Qed.
Lemma append_eq attrs : appendStyleAttrs (E := E) attrs ["stop-color"; "stop-opacity"]%string = attrs ++ match first_attr "style" attrs with Some st => flat_map kv_of (pieces ";" st) | None => [] end.
Proof.
  unfold appendStyleAttrs. cbv zeta. rewrite find_first. destruct (first_attr "style" attrs) as [st|]; [|cbn [String.eqb]; rewrite app_nil_r; reflexivity].
  destruct (String.eqb_spec st "") as [->|N]; [cbn; rewrite app_nil_r; reflexivity|]. rewrite filter_flat, (pieces_split ";" st). reflexivity.
Qed.
Lemma stops_iff attrs : asciis attrs ->
  (fw stop_ok stop_pan (appendStyleAttrs (E := E) attrs ["stop-color"; "stop-opacity"]%string) <-> fw (right_stop E) (stop_panics E) (stop_texts attrs)).
Proof.
  intros Ha. rewrite append_eq. unfold stop_texts. rewrite !fw_app.
  assert (L : fw stop_ok stop_pan attrs <-> fw (right_stop E) (stop_panics E) (map (@Datatypes.inl attr string) attrs)).
  { rewrite fw_map. apply fw_ext. intros a _. split.
    - split; [intros H k v [-> ->]; exact H|]. intros H. apply (H (a_name a) (a_val a)). split; reflexivity.
    - split; [intros [H K]; exists (a_val a); split; [split; [symmetry; exact H|reflexivity]|exact K]|]. intros (v & [H ->] & K). split; [symmetry; exact H|exact K]. }
  assert (M : Forall stop_ok attrs <-> Forall (right_stop E) (map (@Datatypes.inl attr string) attrs)).
  { rewrite Forall_map, !Forall_forall. split; intros H a Hi; specialize (H a Hi); [intros k v [-> ->]; exact H|]. apply (H (a_name a) (a_val a)). split; reflexivity. }
  assert (R : fw stop_ok stop_pan match first_attr "style" attrs with Some st => flat_map kv_of (pieces ";" st) | None => [] end
    <-> fw (right_stop E) (stop_panics E) match first_attr "style" attrs with Some st => map (@Datatypes.inr attr string) (pieces ";" st) | None => [] end).
  { destruct (first_attr "style" attrs) as [st|] eqn:Hf; [|tauto]. rewrite fw_map, (fw_some kv_of _ _ _ kv_one). apply fw_ext. intros s Hs.
    assert (A : all_chars is_ascii s = true).
    { apply first_in in Hf. unfold asciis in Ha. rewrite Forall_forall in Ha. destruct (Ha _ Hf) as [_ A2]. cbn [a_val] in A2.
      rewrite (pieces_split ";") in Hs. apply split_in in Hs as (x & y & Ex & _). rewrite Ex in A2. apply chars_app in A2 as [_ A2]. apply chars_app in A2. apply A2. }
    split.
    - rewrite Forall_forall. split.
      + intros H k v K. apply (kv_gives s k v A) in K. exact (H _ K).
      + intros H [k v] K. apply (kv_gives s k v A) in K. exact (H _ _ K).
    - rewrite Exists_exists. split.
      + intros ([k v] & K & Hk & Hp). cbn [a_name a_val] in Hk, Hp. subst k. exists v. split; [apply (kv_gives s _ v A); exact K|exact Hp].
      + intros (v & K & Hp). exists (mkAttr "stop-color" v). split; [apply (kv_gives s _ v A); exact K|]. split; [reflexivity|exact Hp]. }
  rewrite L, M, R. reflexivity.
Qed.
Lemma pan_stop f attrs : snd f = true -> asciis attrs -> pan f (fw (right_stop E) (stop_panics E) (stop_texts attrs)) (stopF (E := E) attrs).
Proof.
  intros Hf Ha. unfold stopF. intros n l c Hc. unfold bind at 1, gets. rewrite (j_grad _ _ _ _ _ Hc), Hf. revert n l c Hc.
  match goal with |- forall n l c, _ -> (snd (?m c) = Panic <-> ?W) => change (pan f W m) end.
  set (xs := appendStyleAttrs (E := E) attrs ["stop-color"; "stop-opacity"]%string).
  assert (A : forall x, List.In x xs -> all_chars is_ascii (a_val x) = true) by (intros x Hx; exact (proj2 (stop_in attrs x Ha) Hx)).
  apply (pan_iff f (fw stop_ok stop_pan xs \/ Forall stop_ok xs /\ False)); [rewrite <- (stops_iff attrs Ha); fold xs; tauto|].
  apply (pan_bind f f); [apply acc_fold; intros s a Hi; apply (pan_stopAttr f s a (A a Hi))|apply pan_fold; intros s a Hi; apply (pan_stopAttr f s a (A a Hi))|].
  intros s n l c H. split; [|tauto]. unfold onGrad. pose proof (j_some _ _ _ _ _ H Hf) as S. destruct (c_grad c) as [p|] eqn:Hp; [|congruence]. pose proof (j_ptr _ _ _ _ _ H p Hp) as L.
  apply nth_error_Some in L. destruct (nth_error (c_gheap c) p); [discriminate|congruence].
Qed.

(** ** Elements *)
Lemma pan_calm f (m : C unit) : ProofsLocal.calmly (E := E) md f m -> pan f False m.
Proof. intros H n l c Hc. destruct (H n l c Hc) as (c' & -> & _). split; [discriminate|tauto]. Qed.
Lemma pan_attempt f f' P W (m k : C unit) : acc f f' P m -> pan f W m -> ProofsLocal.calmly (E := E) md f' k -> pan f W (err <- attempt m ;; k ;; match err with Some e => raise e | None => ret tt end).
Proof.
  intros Ha H K n l c Hc. destruct (Ha n l c Hc) as [(l1 & H1) _]. rewrite <- (H n l c Hc). unfold bind, attempt. destruct (m c) as [c1 [[]|e| |]]; cbn [fst snd] in *;
    try (destruct (K n l1 c1 H1) as (c2 & -> & _)); cbn; intuition discriminate.
Qed.
Definition stop_W (f : bool * bool) (name : string) (attrs : list attr) : Prop := snd f = true /\ name = "stop"%string /\ fw (right_stop E) (stop_panics E) (stop_texts attrs).
Lemma cinv_canon f : cinv (E := E) false (fst f) (snd f) false 0 0 (canon md f).
Proof.
  destruct f as [d [|]]; (split; [reflexivity|]; split; [reflexivity|]; split; [|split; [split; [constructor|split; [discriminate|reflexivity]]|]]).
  - intros id ds H. discriminate.
  - split; [cbn; lia|]. split; [split; discriminate|]. split; [intros _; exists 0; split; [reflexivity|cbn; lia]|intros id p H; discriminate].
  - intros id ds H. discriminate.
  - split; [cbn; lia|]. split; [split; discriminate|]. split; [discriminate|intros id p H; discriminate].
Qed.
Lemma pan_same f f' R (m : C unit) : ProofsLocal.tw2 (E := E) md f f' R m m -> snd (m (canon md f)) <> Panic -> pan f False m.
Proof.
  intros H K n l c Hc. split; [|tauto]. intros Q. destruct (H n 0 l [] c _ Hc (J_canon md f)) as (d & _ & _ & S). rewrite Q in S. destruct (snd (m (canon md f))); cbn in S; try contradiction; congruence.
Qed.
Lemma pan_draw f name df attrs : ok_at f name = true -> SpecValid.kept (fst f) (snd f) name = false -> drawFuncs fuel name = Some df -> asciis attrs -> pan f (stop_W f name attrs) (df attrs).
Proof.
  intros Ho Hk Hd Ha.
  assert (Hu : name <> "use"%string). { intros ->. unfold ok_at in Ho. unfold SpecValid.kept in Hk. destruct (fst f), (snd f); cbn in Ho, Hk; discriminate. }
  pose proof (draw_at md fuel kt Hturns Hkt f name df attrs Ho Hu Hd) as T. unfold drawFuncs in Hd. apply String.eqb_neq in Hu as Hu'. rewrite Hu' in Hd.
  destruct (String.eqb_spec name "stop") as [->|N1].
  { injection Hd as <-. destruct (snd f) eqn:Hf.
    - eapply pan_iff; [|apply (pan_stop f attrs Hf Ha)]. unfold stop_W. tauto.
    - apply (pan_iff f False); [unfold stop_W; rewrite Hf; intuition discriminate|]. intros n l c Hc. unfold stopF, bind, gets. rewrite (j_grad _ _ _ _ _ Hc), Hf. split; [discriminate|tauto]. }
  apply (pan_iff f False); [unfold stop_W; tauto|]. apply (pan_same _ _ _ _ T). pose proof (cinv_canon f) as I. clear T.
  assert (G : forall c g, tri (cinv (E := E) false (fst f) (snd f) false 0 0) (df attrs) (fun _ => cinv false c g false 0 0) Wc -> snd (df attrs (canon md f)) <> Panic).
  { intros c g G. specialize (G _ I). destruct (df attrs (canon md f)) as [t [a|e| |]]; try discriminate. destruct G; assumption. }
  destruct (String.eqb_spec name "linearGradient") as [->|N2]. { injection Hd as <-. eapply G. apply calm_linear. }
  destruct (String.eqb_spec name "radialGradient") as [->|N3]. { injection Hd as <-. eapply G. apply calm_radial. }
  destruct (String.eqb_spec name "defs") as [->|N4]. { injection Hd as <-. discriminate. }
  eapply G. eapply calm_draw; [exact Hd|]. unfold inert. cbn [existsb]. apply String.eqb_neq in N1, N2, N3, N4. rewrite N1, N2, N3, N4, Hu'. reflexivity.
Qed.
Lemma pan_read f name attrs : ok_at f name = true -> asciis attrs -> pan f (stop_W f name attrs) (readStartElement fuel name attrs).
Proof.
  intros Ho Ha n l c H.
  assert (Sk : c_inDefs c && negb (String.eqb name "radialGradient" || String.eqb name "linearGradient" || c_inGrad c) = SpecValid.kept (fst f) (snd f) name).
  { unfold SpecValid.kept, is_grad_name. rewrite (j_defs _ _ _ _ _ H), (j_grad _ _ _ _ _ H). destruct (fst f), (snd f), (String.eqb name "radialGradient"), (String.eqb name "linearGradient"); reflexivity. }
  unfold readStartElement. unfold bind at 1, gets. cbv zeta. rewrite Sk. destruct (SpecValid.kept (fst f) (snd f) name) eqn:Hk.
  - unfold bind. destruct (negb (String.eqb (attrID attrs) "")); [destruct (calm_flush md f n l c H) as (c1 & -> & H1)|destruct (calm_ret md f n l c H) as (c1 & -> & H1)];
      destruct (calm_addDef md f (mkDef (attrID attrs) name attrs) n l c1 H1) as (c2 & -> & _); (split; [discriminate|]); intros (Hf & _); unfold SpecValid.kept in Hk; rewrite Hf, andb_false_r in Hk; discriminate.
  - destruct (drawFuncs fuel name) as [df|] eqn:Hd.
    + exact (pan_attempt f (inner f name) _ _ _ _ (acc_draw_at md fuel kt Hturns Hkt f name df attrs Ho Hk Hd Ha) (pan_draw f name df attrs Ho Hk Hd Ha) (ProofsLocal.calm_collect md (inner f name)) n l c H).
    + apply known_name in Hd. revert n l c H Sk. clear Hk. intros n l c H _. apply (pan_iff f False _ (handleError (cannotProcess name))) with (n := n) (l := l); [|apply pan_fn, fn_handleError|exact H].
      unfold stop_W. split; [tauto|]. intros (_ & -> & _). apply Hd. cbn. tauto.
Qed.
Theorem start_panics f name attrs n l c : ok_at f name = true -> asciis attrs -> J f n l c ->
  (snd (stepToken fuel (TStart name attrs) c) = Panic <-> panic_at E md (f, (name, attrs))).
Proof.
  intros Ho Ha Hc. cbn [stepToken].
  assert (P : (pushStyle attrs ;; readStartElement fuel name attrs) c = match pushed attrs c with
    | (c1, Ret st) => readStartElement fuel name attrs (c_set_stack (st :: c_stack c1) c1) | (c1, Err e) => (c1, Err e) | (c1, Panic) => (c1, Panic) | (c1, NoFuel) => (c1, NoFuel) end).
  { unfold bind at 1. rewrite push_eq. unfold bind at 1. destruct (pushed attrs c) as [c1 [st|e| |]]; reflexivity. }
  rewrite P. clear P. destruct (acc_texts f attrs Ha n l c Hc) as [(l1 & H1) H2]. pose proof (pan_pushed f attrs Ha n l c Hc) as H3. destruct (pushed attrs c) as [c1 o]. cbn [fst snd] in *.
  unfold panic_at. cbn [fst snd]. rewrite <- !fw_iff, <- H3, <- H2. destruct o as [st|e| |]; cbn [snd].
  - rewrite (pan_read f name attrs Ho Ha (S n) l1 _ (J_push md f n l1 c1 st H1)). unfold stop_W. split; [intros (K1 & K2 & K3); right; split; [eexists; reflexivity|auto]|]. intros [K|(_ & K1 & K2 & K3)]; [discriminate|auto].
  - split; [discriminate|]. intros [K|((x & K) & _)]; discriminate.
  - tauto.
  - split; [discriminate|]. intros [K|((x & K) & _)]; discriminate.
Qed.

(** ** Documents *)
Lemma told_panic it : okit it -> asciis (snd (snd it)) -> ((exists d, ProofsLocal.told (E := E) md fuel it Panic d) <-> panic_at E md it).
Proof.
  destruct it as [f [name attrs]]. intros Ho Ha. cbn [snd] in Ha. rewrite <- (start_panics f name attrs 0 [] _ Ho Ha (J_canon md f)).
  unfold ProofsLocal.told, ProofsLocal.one. cbn [fst snd]. split.
  - intros (d & H & _). destruct (snd (stepToken fuel (TStart name attrs) (canon md f))) as [[]|e| |]; cbn in H; try contradiction. reflexivity.
  - intros H. eexists. split; [rewrite H; exact I|reflexivity].
Qed.
Lemma run_panic its : (exists d, ProofsLocal.run (E := E) md fuel its Panic d) <-> fw (ProofsLocal.good (E := E) md fuel) (fun it => exists d, ProofsLocal.told (E := E) md fuel it Panic d) its.
Proof.
  split.
  - intros (d & H). remember Panic as o eqn:Ho. induction H as [|el els o d ds T R IH|el els o d T N]; [discriminate|cbn [fw]; right; split; [exists d; exact T|auto]|]. subst. left. exists d. exact T.
  - induction its as [|it its IH]; cbn [fw]; [tauto|]. intros [(d & H)|[(d & H) K]]; [exists d; apply run_bad; [exact H|discriminate]|]. destruct (IH K) as (ds & R). exists (d ++ ds). apply run_ok; assumption.
Qed.
Theorem document_panics ns : forallb (well_nested false false) ns = true -> Forall ascii_attrs (flat_map elements_of ns) ->
  (parse (E := E) fuel md (flat_map tokens ns) TermEOF = PPanic <-> first_wrong (valid_at E md) (panic_at E md) (flat_map (placed false false) ns)).
Proof.
  intros Hw Ha. apply wn_doc in Hw.
  assert (Q : flat_map (placed false false) ns = flat_map (ProofsLocal.items out) ns) by (apply flat_map_ext; intros; apply placed_items). rewrite Q.
  assert (A : Forall (fun it : item => asciis (snd (snd it))) (flat_map (ProofsLocal.items out) ns)).
  { rewrite <- Q. assert (M : flat_map elements_of ns = map snd (flat_map (placed false false) ns)).
    { clear. induction ns as [|x ns IH]; [reflexivity|]. cbn [flat_map]. rewrite map_app, placed_elements, IH. reflexivity. }
    rewrite M in Ha. rewrite Forall_map in Ha. exact Ha. }
  rewrite <- fw_iff. transitivity (exists d, ProofsLocal.run (E := E) md fuel (flat_map (ProofsLocal.items out) ns) Panic d).
  - destruct (document_runs md fuel kt Hturns Hkt Hurl ns Hw) as (d & c & o & R & M & _). unfold parse. rewrite M. split.
    + intros H. destruct o as [u|e| |]; [destruct (seenTag _); discriminate|discriminate|exists d; exact R|discriminate].
    + intros (d' & R'). destruct (run_fun _ _ _ _ _ R _ _ R') as [-> _]. reflexivity.
  - rewrite run_panic. apply fw_ext. rewrite Forall_forall in Hw, A. intros it Hi. split; [apply (good_valid md fuel kt Hturns Hkt Hurl it (Hw it Hi) (A it Hi))|exact (told_panic it (Hw it Hi) (A it Hi))].
Qed.

(** ** Nothing else can happen *)
Lemma start_ends f name attrs n l c : ok_at f name = true -> J f n l c -> snd (stepToken fuel (TStart name attrs) c) <> NoFuel.
Proof.
  intros Ho Hc. cbn [stepToken]. pose proof (nf_pushStyle attrs c) as N. unfold bind at 1.
  destruct (ProofsLocal.tw_pushed md Hurl f attrs n n l l c c Hc Hc) as (d & D1 & _ & _). rewrite push_eq in *. unfold bind at 1 in N. unfold bind at 1.
  destruct (pushed attrs c) as [c1 [st|e| |]]; cbn [fst snd modify] in *; try discriminate; [|congruence]. clear N. apply (J_push md f n _ c1 st) in D1. revert D1. generalize (c_set_stack (st :: c_stack c1) c1). clear - Ho Hturns Hkt.
  intros c H. assert (Sk : c_inDefs c && negb (String.eqb name "radialGradient" || String.eqb name "linearGradient" || c_inGrad c) = SpecValid.kept (fst f) (snd f) name).
  { unfold SpecValid.kept, is_grad_name. rewrite (j_defs _ _ _ _ _ H), (j_grad _ _ _ _ _ H). destruct (fst f), (snd f), (String.eqb name "radialGradient"), (String.eqb name "linearGradient"); reflexivity. }
  unfold readStartElement. unfold bind at 1, gets. cbv zeta. rewrite Sk. destruct (SpecValid.kept (fst f) (snd f) name) eqn:Hk.
  - unfold bind. destruct (negb (String.eqb (attrID attrs) "")); [destruct (calm_flush md f _ _ c H) as (c1 & -> & H1)|destruct (calm_ret md f _ _ c H) as (c1 & -> & H1)];
      destruct (calm_addDef md f (mkDef (attrID attrs) name attrs) _ _ c1 H1) as (c2 & -> & _); discriminate.
  - unfold drawFuncs. destruct (String.eqb_spec name "use") as [->|Hu]. { exfalso. unfold ok_at in Ho. unfold SpecValid.kept in Hk. destruct (fst f), (snd f); cbn in Ho, Hk; discriminate. }
    destruct (drawFunc fuel name) as [df|] eqn:Hd; [|apply fine_nf, fn_handleError].
    apply nf_bind; [apply nf_attempt; exact (nf_drawFunc kt Hturns fuel name df attrs Hkt Hd)|]. intros err. apply nf_bind; [apply nf_collectPath|]. intros _. destruct err; [apply nf_raise|apply nf_ret].
Qed.
Lemma run_ends its o d : Forall okit its -> ProofsLocal.run (E := E) md fuel its o d -> o <> NoFuel.
Proof.
  intros Hw H. induction H as [|el els o d ds T R IH|el els o d T N]; [discriminate|inversion Hw; auto|]. inversion Hw as [|? ? F1 _]; subst. destruct T as [T _]. intros ->.
  destruct el as [f [name attrs]]. unfold ProofsLocal.one in T. cbn [fst snd] in T. pose proof (start_ends f name attrs 0 [] _ F1 (J_canon md f)) as K.
  destruct (snd (stepToken fuel (TStart name attrs) (canon md f))) as [[]|e| |]; cbn in T; try contradiction.
Qed.
Theorem document_ends ns : forallb (well_nested false false) ns = true -> parse (E := E) fuel md (flat_map tokens ns) TermEOF <> PNoFuel.
Proof.
  intros Hw. apply wn_doc in Hw. destruct (document_runs md fuel kt Hturns Hkt Hurl ns Hw) as (d & c & o & R & M & _). unfold parse. rewrite M.
  pose proof (run_ends _ _ _ Hw R). destruct o as [u|e| |]; try discriminate; [destruct (seenTag _); discriminate|congruence].
Qed.
Theorem document_errs ns : forallb (well_nested false false) ns = true -> flat_map elements_of ns <> [] -> Forall ascii_attrs (flat_map elements_of ns) ->
  ((exists e, refuses E fuel md ns e) <-> ~ Forall (valid_at E md) (flat_map (placed false false) ns) /\ ~ first_wrong (valid_at E md) (panic_at E md) (flat_map (placed false false) ns)).
Proof.
  intros Hw Hne Ha. rewrite <- (document_panics ns Hw Ha), <- (accepted_valid md fuel kt Hturns Hkt Hurl ns Hw Hne Ha). pose proof (document_ends ns Hw) as N. unfold refuses, accepts, says_of. revert N. unfold parse.
  rewrite (seen_elements ns Hne). destruct (mapM (stepToken fuel) (flat_map tokens ns) (cursor0 md)) as [c [u|e| |]]; intros N.
  - split; [intros (e & log & s & H); discriminate|]. intros [H _]. exfalso. apply H. eexists. eexists. reflexivity.
  - split; [|intros _; eexists; eexists; eexists; reflexivity]. intros _. split; [intros (log & s & H); discriminate|discriminate].
  - split; [intros (e & log & s & H); discriminate|tauto].
  - congruence.
Qed.
End Panics.

(** * ProofsMistake2: wrong style declarations make Parse fail (C61) *)
From Coq Require Import ZArith Lia.
From Verif Require Export ProofsMistake.
From Verif Require Import ProofsMode ProofsSpell ProofsStyle ProofsColor ProofsUnit ProofsTok ProofsPath4.
Local Open Scope go_scope.

Section L.
Context {E : Env}.
Notation cursor := (cursor E).

(** ** Transforms *)
Lemma alpha_plain c : is_alpha c = true -> plain c = true /\ c <> "("%char /\ c <> ")"%char /\ is_ascii c = true.
Proof.
  destruct c as [b0 b1 b2 b3 b4 b5 b6 b7]. destruct b0, b1, b2, b3, b4, b5, b6, b7; vm_compute; intros H; try discriminate H; repeat split; discriminate.
Qed.
Lemma alpha_word s : all_chars (fun c => is_alpha c) s = true -> all_chars plain s = true
  /\ no_char "(" s = true /\ no_char ")" s = true /\ all_chars is_ascii s = true.
Proof.
  induction s as [|c s IH]; [cbn; auto|]. cbn [all_chars]. intros H. apply andb_prop in H as [Hc Hs]. destruct (IH Hs) as (H1 & H2 & H3 & H4).
  destruct (alpha_plain c Hc) as (K1 & K2 & K3 & K4). unfold no_char in *. cbn [all_chars]. rewrite H1, H2, H3, H4, K1, K4.
  apply Ascii.eqb_neq in K2, K3. rewrite K2, K3. auto.
Qed.
Lemma attr_count m name vs : tfun_takes name (List.length vs) = false -> forall x, readTransformAttr (E := E) m name vs <> Ret x.
Proof.
  intros H x. unfold readTransformAttr, tfun_takes, tfun_args in *. cbn [existsb fst snd] in H. rewrite !orb_false_iff in H.
  destruct H as (H1 & H2 & H3 & H4 & H5 & H6 & _).
  destruct (String.eqb name "rotate"). { destruct vs as [|? [|? [|? [|? ?]]]]; discriminate. }
  destruct (String.eqb name "translate"). { destruct vs as [|? [|? [|? [|? ?]]]]; discriminate. }
  destruct (String.eqb name "skewx"). { destruct vs as [|? [|? [|? [|? ?]]]]; discriminate. }
  destruct (String.eqb name "skewy"). { destruct vs as [|? [|? [|? [|? ?]]]]; discriminate. }
  destruct (String.eqb name "scale"). { destruct vs as [|? [|? [|? [|? ?]]]]; discriminate. }
  destruct (String.eqb name "matrix"). { destruct vs as [|? [|? [|? [|? [|? [|? [|? ?]]]]]]]; discriminate. }
  discriminate.
Qed.
Lemma nv_step_plain m v : all_chars is_ascii v = true -> blank v = false -> lacks "(" v = true -> never (transformStep (E := E) m v).
Proof.
  intros Ha Hb Hl. unfold transformStep. destruct (trim_split v Ha) as (l & r & Hv & Bl & Br). cbv zeta. destruct (trimSpace v) as [|c t] eqn:Ht.
  - rewrite Hv in Hb. cbn [append] in Hb. rewrite (app_blank _ _ Bl Br) in Hb. discriminate.
  - cbn [String.length Nat.eqb]. rewrite split1_none; [apply fl_raise|].
    change (no_char "(" v = true) in Hl. rewrite Hv, !no_char_app in Hl. apply andb_prop in Hl as [_ Hl]. apply andb_prop in Hl. apply Hl.
Qed.
Lemma nv_step_args m l name b args vs : blank l = true -> blank b = true -> name <> ""%string -> all_chars (fun c => is_alpha c) name = true ->
  spells_numbers E args vs -> vs <> [] -> tfun_takes (low_case name) (List.length vs) = false ->
  never (transformStep (E := E) m (l ++ name ++ b ++ "(" ++ args)).
Proof.
  intros Hl Hb Nne Hn Ha Hvs Hc.
  destruct (numbers_trim vs args Ha Hvs) as (a & t & -> & Ht & Ha' & k & q & Hk & Hp).
  destruct (alpha_word _ Hn) as (Np & No & Nc & Nas).
  unfold transformStep.
  replace (l ++ name ++ b ++ "(" ++ a ++ t)%string with (l ++ (name ++ b ++ "(" ++ a) ++ t)%string by (rewrite !sapp_assoc; cbn; rewrite ?sapp_assoc; reflexivity).
  assert (Hsol : solid (name ++ b ++ "(" ++ a) = true).
  { apply solid_app; auto.
    - apply front_chars. exact Np.
    - destruct (last_app "(" _ _ _ Hk) as (q1 & H1). destruct (last_app b _ _ _ H1) as (q2 & H2). rewrite H2. exact Hp.
    - destruct b; discriminate. }
  rewrite trimSpace_pad by assumption.
  assert (Hlen : (String.length (name ++ b ++ "(" ++ a) =? 0) = false) by (destruct name; [congruence|reflexivity]).
  cbv zeta. rewrite Hlen.
  assert (Hs : split1 "(" (name ++ b ++ "(" ++ a) = [(name ++ b)%string; a]).
  { replace (name ++ b ++ "(" ++ a)%string with ((name ++ b) ++ String "(" a)%string by (rewrite !sapp_assoc; reflexivity).
    rewrite split1_cons, split1_none; [reflexivity| |].
    - apply (numbers_no "(" a vs); auto.
    - rewrite no_char_app, No, (blank_no "(" b); auto. }
  rewrite Hs.
  assert (Hla : (String.length a <? 1) = false) by (destruct a; [discriminate Hk|reflexivity]).
  rewrite Hla. intros c _ c' x. erewrite bind_step. 2:{ unfold liftP. rewrite getPoints_numbers, (numbers_spelled _ _ Ha'). reflexivity. }
  erewrite bind_step by (unfold gets; reflexivity). cbn [fst snd c_pc c_set_pc set_points pc_points].
  rewrite trimSpace_end by (auto; apply solid_chars; exact Np).
  rewrite toLower_low by exact Nas. unfold lift. intros K. injection K as _ K. exact (attr_count _ _ _ Hc _ K).
Qed.
Lemma nv_step_none m l name b : blank l = true -> blank b = true -> name <> ""%string -> all_chars (fun c => is_alpha c) name = true ->
  never (transformStep (E := E) m (l ++ name ++ b ++ "(")).
Proof.
  intros Hl Hb Nne Hn. destruct (alpha_word _ Hn) as (Np & No & Nc & Nas). unfold transformStep.
  replace (l ++ name ++ b ++ "(")%string with (l ++ (name ++ b ++ "(") ++ "")%string by (rewrite !sapp_assoc; cbn; rewrite ?sapp_assoc; reflexivity).
  assert (Hsol : solid (name ++ b ++ "(") = true).
  { apply solid_app; auto.
    - apply front_chars. exact Np. - rewrite rev_app. reflexivity. - destruct b; discriminate. }
  rewrite trimSpace_pad by auto.
  assert (Hlen : (String.length (name ++ b ++ "(") =? 0) = false) by (destruct name; [congruence|reflexivity]).
  cbv zeta. rewrite Hlen.
  assert (Hs : split1 "(" (name ++ b ++ "(") = [(name ++ b)%string; ""%string]).
  { replace (name ++ b ++ "(")%string with ((name ++ b) ++ String "(" "")%string by (rewrite !sapp_assoc; reflexivity).
    rewrite split1_cons; [reflexivity|]. rewrite no_char_app, No, (blank_no "(" b); auto. }
  rewrite Hs. apply fl_raise.
Qed.
Lemma nv_transform v : bad_transform E v -> never (parseTransform (E := E) v).
Proof.
  intros H. unfold parseTransform. apply fl_bind_r; [apply kept_any|]. intros top.
  assert (K : forall p, List.In p (split1 ")" v) -> (forall m, never (transformStep (E := E) m p)) -> never (foldM (transformStep (E := E)) (st_transform top) (rev (split1 ")" v)))).
  { intros p Hi Hn. apply (fl_foldM _ _ p); [intros; apply kept_any|exact Hn|apply in_rev; rewrite rev_involutive; exact Hi]. }
  destruct H as [before v Hb Ha Bv L1 L2|before l name m args vs after Hb Bl Bm Nn Na Hs Hv Ht|before l name m after Hb Bl Bm Nn Na].
  - apply (K v); [|intros; now apply nv_step_plain]. rewrite <- (sapp_nil_r v) at 2. apply piece_in; auto.
  - apply (K (l ++ name ++ m ++ "(" ++ args)%string); [|intros; eapply nv_step_args; eassumption].
    replace (before ++ l ++ name ++ m ++ "(" ++ args ++ ")" ++ after)%string with (before ++ (l ++ name ++ m ++ "(" ++ args) ++ String ")" after)%string
      by (rewrite !sapp_assoc; reflexivity).
    apply piece_in; eauto. destruct (alpha_word _ Na) as (_ & _ & Nc & _).
    rewrite !no_char_app, (blank_no ")" l), (blank_no ")" m), Nc, (numbers_no ")" args vs); auto.
  - apply (K (l ++ name ++ m ++ "(")%string); [|intros; now apply nv_step_none].
    replace (before ++ l ++ name ++ m ++ "()" ++ after)%string with (before ++ (l ++ name ++ m ++ "(") ++ String ")" after)%string
      by (rewrite !sapp_assoc; reflexivity).
    apply piece_in; eauto. destruct (alpha_word _ Na) as (_ & _ & Nc & _).
    rewrite !no_char_app, (blank_no ")" l), (blank_no ")" m), Nc; auto.
Qed.
(** ** Selectors *)
Lemma index_lacks s : lacks ")" s = true -> String.index 0 ")" s = None.
Proof.
  unfold lacks. induction s as [|c s IH]; [reflexivity|]. cbn [all_chars]. intros H. apply andb_prop in H as [Hc Hs].
  cbn [String.index String.prefix]. rewrite (IH Hs). apply negb_true_iff, Ascii.eqb_neq in Hc.
  destruct (ascii_dec ")" c); [congruence|]. reflexivity.
Qed.
Lemma index_at s r : lacks ")" s = true -> String.index 0 ")" (s ++ ")" ++ r) = Some (String.length s).
Proof.
  unfold lacks. induction s as [|c s IH]; [intros _; cbn; destruct r; reflexivity|]. cbn [all_chars]. intros H. apply andb_prop in H as [Hc Hs].
  cbn [append String.index String.prefix]. cbn [append] in IH. rewrite (IH Hs). apply negb_true_iff, Ascii.eqb_neq in Hc.
  destruct (ascii_dec ")" c); [congruence|]. reflexivity.
Qed.
Lemma substring_app s r : String.substring 0 (String.length s) (s ++ r) = s.
Proof. induction s as [|c s IH]; [destruct r; reflexivity|]. cbn. rewrite IH. reflexivity. Qed.
Lemma nc_selector v : bad_selector v -> forall x, parseSelector v <> Ret x.
Proof.
  intros H x. destruct H as [v H1 H2 H3|s Hs|s r Hs Hp]; unfold parseSelector.
  - destruct (String.eqb_spec v "none") as [|_]; [congruence|]. destruct v as [|c v]; [congruence|]. cbn [String.length Nat.eqb orb]. rewrite H3. discriminate.
  - change (hasPrefix ("url(" ++ s) "url(") with (hasPrefix s ""). replace (hasPrefix s "") with true by (destruct s; reflexivity).
    rewrite index_lacks; [|exact Hs]. discriminate.
  - change (hasPrefix ("url(" ++ s ++ ")" ++ r) "url(") with (hasPrefix (s ++ ")" ++ r) "").
    replace (hasPrefix (s ++ ")" ++ r) "") with true by (destruct s; reflexivity).
    change ((String.length ("url(" ++ s ++ ")" ++ r) =? 0) || String.eqb ("url(" ++ s ++ ")" ++ r) "none") with false. cbv iota.
    replace ("url(" ++ s ++ ")" ++ r)%string with (("url(" ++ s) ++ ")" ++ r)%string by reflexivity. rewrite index_at by exact Hs.
    change (String.length ("url(" ++ s)) with (4 + String.length s). unfold slice.
    destruct ((4 <=? 4 + String.length s) && (4 + String.length s <=? String.length (("url(" ++ s) ++ ")" ++ r))); [|discriminate].
    replace (4 + String.length s - 4) with (String.length s) by lia. cbn [obind].
    change (String.substring 4 (String.length s) (("url(" ++ s) ++ ")" ++ r)) with (String.substring 0 (String.length s) (s ++ ")" ++ r)).
    rewrite substring_app, Hp. discriminate.
Qed.

(** ** Declarations *)
Lemma bad_no_url v : bad_colour E v -> hasPrefix v "url(" = false.
Proof.
  intros H. destruct H as [v Ha Hu _ _ _ _|s _ _ _|s w _ _ _ _|s c _ _ _ _ _]; [|reflexivity..].
  destruct (hasPrefix v "url(") eqn:Hp; [|reflexivity]. exfalso. apply prefix_iff in Hp as (r & ->).
  change (low_case ("url(" ++ r)) with (String "u" (String "r" (String "l" (String "(" (low_case r))))) in Hu. discriminate.
Qed.
Lemma nv_paint v d (k1 : gradient E -> style E) (k2 : option (pattern E) -> style E) : bad_colour E v ->
  never (g <- readGradURL (E := E) v d ;;
         match g with Some g => ret (k1 g) | None => col <- lift (parseSVGColor (E := E) v) ;; ret (k2 (asPattern col)) end).
Proof.
  intros H. unfold readGradURL. rewrite (bad_no_url v H). cbn [andb]. intros c _ c' x. erewrite bind_step by reflexivity. revert c c' x.
  intros c c' x. apply (fl_bind_l (fun _ => True)); [|exact I]. apply fl_lift, nc_colour, H.
Qed.
Lemma nv_decl k v st : bad_decl E k v -> never (readStyleAttr (E := E) st k v).
Proof.
  intros H. destruct H as [k v Hk Hv|v w Hn (a & b & -> & Hw & Hc & Ha & Hb) Hl|v Hv|v Hv|v Hv|v Hv].
  - cbn in Hk. repeat (destruct Hk as [<-|Hk]; [|]); [..|destruct Hk]; unfold readStyleAttr; cbn [String.eqb Ascii.eqb Bool.eqb orb].
    1,2: apply fl_bind_l, nv_unit, Hv. all: apply fl_bind_l, fl_lift, bad_basic, Hv.
  - unfold readStyleAttr. cbn [String.eqb Ascii.eqb Bool.eqb]. apply String.eqb_neq in Hn. rewrite Hn. cbn [negb]. apply fl_bind_l.
    apply (nv_dashes _ w); [|exact Hl]. apply fields_in; try assumption. destruct Ha as [->|Ha]; auto.
  - unfold readStyleAttr. cbn [String.eqb Ascii.eqb Bool.eqb]. apply (nv_paint v _ (fun g => s_set_filler (Some (PGrad g)) st) (fun p => s_set_filler p st)), Hv.
  - unfold readStyleAttr. cbn [String.eqb Ascii.eqb Bool.eqb]. apply (nv_paint v _ (fun g => s_set_liner (Some (PGrad g)) st) (fun p => s_set_liner p st)), Hv.
  - unfold readStyleAttr. cbn [String.eqb Ascii.eqb Bool.eqb orb]. apply fl_bind_l, nv_transform, Hv.
  - unfold readStyleAttr. cbn [String.eqb Ascii.eqb Bool.eqb orb]. apply fl_bind_l, fl_lift, nc_selector, Hv.
Qed.
Lemma pairs_app l1 l2 : stylePairs (E := E) (l1 ++ l2) = stylePairs (E := E) l1 ++ stylePairs (E := E) l2.
Proof. unfold stylePairs. apply flat_map_app. Qed.
Lemma fl_push I a ds k v attrs : (forall st p, kept I (stylePair (E := E) st p)) -> (forall st k v, kept I (readStyleAttr (E := E) st k v)) ->
  List.In a attrs -> attr_decls a ds -> List.In (k, v) ds -> (forall st, fails I (readStyleAttr (E := E) st k v)) ->
  fails I (pushStyle (E := E) attrs).
Proof.
  intros Hk Hr Ha Hd Hi Hf. apply in_split in Ha as (l1 & l2 & ->). unfold pushStyle. apply fl_bind_r.
  { intros c Hc c' x. unfold topStyle. destruct (c_stack c); [discriminate|]. intros K. injection K as <- _. exact Hc. }
  intros top. apply fl_bind_l. change (a :: l2) with ([a] ++ l2). rewrite !pairs_app. apply fl_foldM_app; [exact Hk|].
  intros l c Hc c' x. assert (Hd' : attrs_decls [a] (ds ++ [])) by (constructor; [exact Hd|constructor]). rewrite app_nil_r in Hd'.
  rewrite (attrs_reads _ _ Hd'). revert c Hc c' x. apply (fl_foldM I _ (k, v)); [intros; apply Hr|exact Hf|exact Hi].
Qed.
Lemma nv_push a ds k v attrs : List.In a attrs -> attr_decls a ds -> List.In (k, v) ds -> bad_decl E k v -> never (pushStyle (E := E) attrs).
Proof. intros Ha Hd Hi Hb. eapply fl_push; try eassumption; intros; try apply kept_any. apply nv_decl, Hb. Qed.

(** ** Elements *)
Lemma points_are v xs (c : cursor) : spells_numbers E v xs -> cGetPoints (E := E) v c = (c_set_pc (set_points xs (c_pc c)) c, Ret tt).
Proof. intros H. unfold cGetPoints, liftP. rewrite getPoints_numbers, (numbers_spelled _ _ H). reflexivity. Qed.
Lemma nv_viewBox l v xs : spells_numbers E v xs -> List.length xs <> 4 -> never (svgAttr (E := E) l (mkAttr "viewBox" v)).
Proof.
  intros Hs Hl c _ c' x. destruct l as [w h]. unfold svgAttr, is. cbn [a_name a_val String.eqb Ascii.eqb Bool.eqb].
  erewrite bind_step by (unfold attempt; rewrite (points_are v xs c Hs); reflexivity).
  erewrite bind_step by (unfold cPoints, gets; reflexivity). cbn.
  destruct xs as [|? [|? [|? [|? [|? ?]]]]]; cbn in *; try discriminate. lia.
Qed.
Lemma nv_poly l v xs : spells_numbers E v xs -> Nat.odd (List.length xs) = true -> never (polyAttr (E := E) l (mkAttr "points" v)).
Proof.
  intros Hs Hl c _ c' x. unfold polyAttr, is. cbn [a_name a_val String.eqb Ascii.eqb Bool.eqb].
  erewrite bind_step by (unfold attempt; rewrite (points_are v xs c Hs); reflexivity).
  erewrite bind_step by (unfold cPoints, gets; reflexivity). cbn [c_pc c_set_pc set_points pc_points].
  apply Nat.odd_spec in Hl as (m & Hm). rewrite Hm. replace (2 * m + 1) with (1 + m * 2) by lia. rewrite Nat.mod_add by lia. discriminate.
Qed.
Lemma nv_svg f : (forall l, never (foldM (svgAttr (E := E)) l f)) -> never (svgF (E := E) f).
Proof. intros H. unfold svgF. apply fl_bind_r; [apply kept_any|]. intros _. apply fl_bind_l, H. Qed.
Ltac attrs_in Hi := eapply fl_foldM; [intros; apply kept_any| |exact Hi]; intros l; repeat match goal with l : (_ * _)%type |- _ => destruct l end.
Lemma nv_length fuel name df attrs n v : drawFuncs (E := E) fuel name = Some df -> List.In n (lengths_of name) -> List.In (mkAttr n v) attrs -> bad_length E v ->
  never (df attrs).
Proof.
  intros Hd Hn Hi Hv. unfold lengths_of in Hn. cbn [List.find fst snd] in Hn.
  destruct (String.eqb_spec name "rect") as [->|_].
  { injection Hd as <-. unfold rectF. apply fl_bind_l. attrs_in Hi. unfold rectAttr, is. cbn [a_name a_val].
    cbn in Hn. repeat (destruct Hn as [<-|Hn]; [cbn [String.eqb Ascii.eqb Bool.eqb]; apply fl_bind_l, nv_unit, Hv|]). destruct Hn. }
  destruct (String.eqb_spec name "circle") as [->|_].
  { injection Hd as <-. unfold circleF. apply fl_bind_l. attrs_in Hi. unfold circleAttr, is. cbn [a_name a_val].
    cbn in Hn. repeat (destruct Hn as [<-|Hn]; [cbn [String.eqb Ascii.eqb Bool.eqb]; apply fl_bind_l, nv_unit, Hv|]). destruct Hn. }
  destruct (String.eqb_spec name "ellipse") as [->|_].
  { injection Hd as <-. unfold circleF. apply fl_bind_l. attrs_in Hi. unfold circleAttr, is. cbn [a_name a_val].
    cbn in Hn. repeat (destruct Hn as [<-|Hn]; [cbn [String.eqb Ascii.eqb Bool.eqb]; apply fl_bind_l, nv_unit, Hv|]). destruct Hn. }
  destruct (String.eqb_spec name "line") as [->|_].
  { injection Hd as <-. unfold lineF. apply fl_bind_l. attrs_in Hi. unfold lineAttr, is. cbn [a_name a_val].
    cbn in Hn. repeat (destruct Hn as [<-|Hn]; [cbn [String.eqb Ascii.eqb Bool.eqb]; apply fl_bind_l, nv_unit, Hv|]). destruct Hn. }
  destruct (String.eqb_spec name "mask") as [->|_].
  { injection Hd as <-. unfold maskF. apply fl_bind_l. attrs_in Hi. unfold maskAttr, is. cbn [a_name a_val].
    cbn in Hn. repeat (destruct Hn as [<-|Hn]; [cbn [String.eqb Ascii.eqb Bool.eqb]; apply fl_bind_l, nv_unit, Hv|]). destruct Hn. }
  destruct (String.eqb_spec name "use") as [->|_].
  { injection Hd as <-. destruct fuel as [|fuel]; cbn [useF]; [intros c _ c' x; discriminate|]. apply fl_bind_l. attrs_in Hi. unfold useAttr, is. cbn [a_name a_val].
    cbn in Hn. repeat (destruct Hn as [<-|Hn]; [cbn [String.eqb Ascii.eqb Bool.eqb]; apply fl_bind_l, nv_unit, Hv|]). destruct Hn. }
  destruct (String.eqb_spec name "svg") as [->|_]; [|destruct Hn].
  injection Hd as <-. apply nv_svg. intros l0. attrs_in Hi. unfold svgAttr, is. cbn [a_name a_val].
  cbn in Hn. repeat (destruct Hn as [<-|Hn]; [cbn [String.eqb Ascii.eqb Bool.eqb]; apply fl_bind_r; [apply kept_any|]; intros _; apply fl_bind_l, fl_lift, bad_basic, Hv|]). destruct Hn.
Qed.
(** the strings of a gradient: the last value of each *)
Definition lasts (n d : string) (attrs : list attr) : string := match last_attr n attrs with Some v => v | None => d end.
Lemma lasts_cons n d a attrs : lasts n d (a :: attrs) = lasts n (if String.eqb (a_name a) n then a_val a else d) attrs.
Proof. unfold lasts. cbn [last_attr]. destruct (last_attr n attrs); [reflexivity|]. destruct (String.eqb (a_name a) n); reflexivity. Qed.
Lemma lin_fold attrs : forall x1 y1 x2 y2 (c c' : cursor) l, foldM (linAttr (E := E)) (x1, y1, x2, y2) attrs c = (c', Ret l) ->
  l = (lasts "x1" x1 attrs, lasts "y1" y1 attrs, lasts "x2" x2 attrs, lasts "y2" y2 attrs).
Proof.
  induction attrs as [|a attrs IH]; intros x1 y1 x2 y2 c c' l H; cbn [foldM] in H; [injection H as _ <-; reflexivity|].
  rewrite !lasts_cons. apply bindC in H as (c1 & l1 & H1 & H2). unfold linAttr, is in H1.
  destruct (String.eqb_spec (a_name a) "id") as [Ha|N0]; [rewrite ?Ha; apply bindC in H1 as (? & ? & _ & H1); injection H1 as _ <-; exact (IH _ _ _ _ _ _ _ H2)|].
  destruct (String.eqb_spec (a_name a) "x1") as [Ha|N1]; [rewrite ?Ha; injection H1 as _ <-; exact (IH _ _ _ _ _ _ _ H2)|].
  destruct (String.eqb_spec (a_name a) "y1") as [Ha|N2]; [rewrite ?Ha; injection H1 as _ <-; exact (IH _ _ _ _ _ _ _ H2)|].
  destruct (String.eqb_spec (a_name a) "x2") as [Ha|N3]; [rewrite ?Ha; injection H1 as _ <-; exact (IH _ _ _ _ _ _ _ H2)|].
  destruct (String.eqb_spec (a_name a) "y2") as [Ha|N4]; [rewrite ?Ha; injection H1 as _ <-; exact (IH _ _ _ _ _ _ _ H2)|].
  apply bindC in H1 as (? & ? & _ & H1). injection H1 as _ <-. exact (IH _ _ _ _ _ _ _ H2).
Qed.
Definition olasts (n : string) (d : option string) (attrs : list attr) : option string := match last_attr n attrs with Some v => Some v | None => d end.
Lemma olasts_cons n d a attrs : olasts n d (a :: attrs) = olasts n (if String.eqb (a_name a) n then Some (a_val a) else d) attrs.
Proof. unfold olasts. cbn [last_attr]. destruct (last_attr n attrs); [reflexivity|]. destruct (String.eqb (a_name a) n); reflexivity. Qed.
Lemma rad_fold attrs : forall cx cy fx fy r fr (c c' : cursor) l, foldM (radAttr (E := E)) (cx, cy, fx, fy, r, fr) attrs c = (c', Ret l) ->
  l = (lasts "cx" cx attrs, lasts "cy" cy attrs, olasts "fx" fx attrs, olasts "fy" fy attrs, lasts "r" r attrs, lasts "fr" fr attrs).
Proof.
  induction attrs as [|a attrs IH]; intros cx cy fx fy r fr c c' l H; cbn [foldM] in H; [injection H as _ <-; reflexivity|].
  rewrite !lasts_cons, !olasts_cons. apply bindC in H as (c1 & l1 & H1 & H2). unfold radAttr, is in H1.
  destruct (String.eqb_spec (a_name a) "id") as [Ha|N0]; [rewrite ?Ha; apply bindC in H1 as (? & ? & _ & H1); injection H1 as _ <-; exact (IH _ _ _ _ _ _ _ _ _ H2)|].
  destruct (String.eqb_spec (a_name a) "cx") as [Ha|N1]; [rewrite ?Ha; injection H1 as _ <-; exact (IH _ _ _ _ _ _ _ _ _ H2)|].
  destruct (String.eqb_spec (a_name a) "cy") as [Ha|N2]; [rewrite ?Ha; injection H1 as _ <-; exact (IH _ _ _ _ _ _ _ _ _ H2)|].
  destruct (String.eqb_spec (a_name a) "fx") as [Ha|N3]; [rewrite ?Ha; injection H1 as _ <-; exact (IH _ _ _ _ _ _ _ _ _ H2)|].
  destruct (String.eqb_spec (a_name a) "fy") as [Ha|N4]; [rewrite ?Ha; injection H1 as _ <-; exact (IH _ _ _ _ _ _ _ _ _ H2)|].
  destruct (String.eqb_spec (a_name a) "r") as [Ha|N5]; [rewrite ?Ha; injection H1 as _ <-; exact (IH _ _ _ _ _ _ _ _ _ H2)|].
  destruct (String.eqb_spec (a_name a) "fr") as [Ha|N6]; [rewrite ?Ha; injection H1 as _ <-; exact (IH _ _ _ _ _ _ _ _ _ H2)|].
  apply bindC in H1 as (? & ? & _ & H1). injection H1 as _ <-. exact (IH _ _ _ _ _ _ _ _ _ H2).
Qed.
Lemma lasts_some n d attrs v : last_attr n attrs = Some v -> lasts n d attrs = v. Proof. unfold lasts. intros ->. reflexivity. Qed.
Lemma olasts_some n d attrs v : last_attr n attrs = Some v -> olasts n d attrs = Some v. Proof. unfold olasts. intros ->. reflexivity. Qed.
Lemma nv_coordinate fuel name df attrs n v : drawFuncs (E := E) fuel name = Some df -> List.In n (coordinates_of name) -> last_attr n attrs = Some v -> bad_length E v ->
  never (df attrs).
Proof.
  intros Hd Hn Hi Hv. unfold coordinates_of in Hn. cbn [List.find fst snd] in Hn.
  destruct (String.eqb_spec name "linearGradient") as [->|_].
  { injection Hd as <-. unfold linearGradientF. do 2 (apply fl_bind_r; [apply kept_any|]; intros _). intros c _ c' x H. apply bindC in H as (c1 & l & H1 & H2).
    apply lin_fold in H1. subst l. revert H2. apply (fun m (K : never m) => K c1 I c' x). cbn in Hn.
    destruct Hn as [<-|[<-|[<-|[<-|[]]]]]; rewrite (lasts_some _ _ _ _ Hi).
    - apply fl_bind_r; [apply kept_any|]. intros g. apply fl_bind_l, fl_lift, bad_resolve, Hv.
    - do 2 (apply fl_bind_r; [apply kept_any|]; intros ?). apply fl_bind_l, fl_lift, bad_resolve, Hv.
    - do 3 (apply fl_bind_r; [apply kept_any|]; intros ?). apply fl_bind_l, fl_lift, bad_resolve, Hv.
    - do 4 (apply fl_bind_r; [apply kept_any|]; intros ?). apply fl_bind_l, fl_lift, bad_resolve, Hv. }
  destruct (String.eqb_spec name "radialGradient") as [->|_]; [|destruct Hn].
  injection Hd as <-. unfold radialGradientF. do 2 (apply fl_bind_r; [apply kept_any|]; intros _). intros c _ c' x H. apply bindC in H as (c1 & l & H1 & H2).
  apply rad_fold in H1. subst l. revert H2. apply (fun m (K : never m) => K c1 I c' x). cbn in Hn. cbv zeta.
  destruct Hn as [<-|[<-|[<-|[<-|[<-|[<-|[]]]]]]]; rewrite ?(lasts_some _ _ _ _ Hi), ?(olasts_some _ _ _ _ Hi).
  - apply fl_bind_r; [apply kept_any|]. intros g. apply fl_bind_l, fl_lift, bad_resolve, Hv.
  - do 2 (apply fl_bind_r; [apply kept_any|]; intros ?). apply fl_bind_l, fl_lift, bad_resolve, Hv.
  - do 3 (apply fl_bind_r; [apply kept_any|]; intros ?). apply fl_bind_l, fl_lift, bad_resolve, Hv.
  - do 4 (apply fl_bind_r; [apply kept_any|]; intros ?). apply fl_bind_l, fl_lift, bad_resolve, Hv.
  - do 5 (apply fl_bind_r; [apply kept_any|]; intros ?). apply fl_bind_l, fl_lift, bad_resolve, Hv.
  - do 6 (apply fl_bind_r; [apply kept_any|]; intros ?). apply fl_bind_l, fl_lift, bad_resolve, Hv.
Qed.
Lemma use_fold attrs : forall h x y (c c' : cursor) l, foldM (useAttr (E := E)) (h, x, y) attrs c = (c', Ret l) -> fst (fst l) = lasts "href" h attrs.
Proof.
  induction attrs as [|a attrs IH]; intros h x y c c' l H; cbn [foldM] in H; [injection H as _ <-; reflexivity|].
  rewrite lasts_cons. apply bindC in H as (c1 & l1 & H1 & H2). unfold useAttr, is in H1.
  destruct (String.eqb (a_name a) "href"); [injection H1 as _ <-; exact (IH _ _ _ _ _ _ H2)|].
  destruct (String.eqb (a_name a) "x"); [apply bindC in H1 as (? & ? & _ & H1); injection H1 as _ <-; exact (IH _ _ _ _ _ _ H2)|].
  destruct (String.eqb (a_name a) "y"); [apply bindC in H1 as (? & ? & _ & H1); injection H1 as _ <-; exact (IH _ _ _ _ _ _ H2)|].
  injection H1 as _ <-. exact (IH _ _ _ _ _ _ H2).
Qed.
Lemma nv_href fuel attrs : hasPrefix (lasts "href" "" attrs) "#" = false -> never (useF (E := E) fuel attrs).
Proof.
  intros Hh. destruct fuel as [|fuel]; cbn [useF]; [intros c _ c' x; discriminate|]. intros c _ c' x H. apply bindC in H as (c1 & [[h x0] y0] & H1 & H2).
  apply use_fold in H1. cbn [fst] in H1. rewrite <- H1 in Hh. revert H2. apply (fun m (K : never m) => K c1 I c' x).
  apply fl_bind_r; [apply kept_any|]. intros _. apply fl_deferred. destruct (String.eqb h ""); [apply fl_raise|]. rewrite Hh. cbn [negb]. apply fl_raise.
Qed.
Lemma nv_element fuel name df attrs : drawFuncs (E := E) fuel name = Some df -> bad_element E name attrs -> never (df attrs).
Proof.
  intros Hd H. destruct H as [name attrs n v Hn Hi Hv|name attrs n v Hn Hi Hv|attrs v xs Hi Hs Hl|name attrs v xs Hn Hi Hs Hl|name attrs v Hn Hi Hv|attrs Hi|attrs Hi|attrs v Hi Hv].
  - eapply nv_length; eassumption.
  - eapply nv_coordinate; eassumption.
  - injection Hd as <-. apply nv_svg. intros l0. attrs_in Hi. eapply nv_viewBox; eassumption.
  - assert (K : never (polylineF (E := E) attrs)) by (unfold polylineF; apply fl_bind_l; attrs_in Hi; eapply nv_poly; eassumption).
    destruct Hn as [->| ->]; injection Hd as <-; [exact K|]. unfold polygonF. intros c _ c' x. unfold bind at 1, attempt. destruct (polylineF attrs c) as [c1 [[]|e| |]] eqn:H1; try discriminate.
    + exfalso. exact (K c I c1 tt H1).
    + apply (fun m (Q : never m) => Q c1 I c' x). do 2 (apply fl_bind_r; [apply kept_any|]; intros ?). apply fl_raise.
  - destruct Hn as [->| ->]; injection Hd as <-.
    + unfold linearGradientF. do 2 (apply fl_bind_r; [apply kept_any|]; intros _). apply fl_bind_l. attrs_in Hi. unfold linAttr, is, readGradAttr.
      cbn [a_name a_val String.eqb Ascii.eqb Bool.eqb]. do 2 apply fl_bind_l. apply nv_transform, Hv.
    + unfold radialGradientF. do 2 (apply fl_bind_r; [apply kept_any|]; intros _). apply fl_bind_l. attrs_in Hi. unfold radAttr, is, readGradAttr.
      cbn [a_name a_val String.eqb Ascii.eqb Bool.eqb]. do 2 apply fl_bind_l. apply nv_transform, Hv.
  - injection Hd as <-. unfold maskF. apply fl_bind_l. attrs_in Hi. unfold maskAttr, is. cbn. apply fl_raise.
  - injection Hd as <-. apply nv_href. unfold lasts. rewrite Hi. reflexivity.
  - injection Hd as <-. apply nv_href. unfold lasts. rewrite Hi. exact Hv.
Qed.
(** stops *)
Lemma append_in attrs names a : List.In a attrs -> List.In a (appendStyleAttrs (E := E) attrs names).
Proof.
  intros H. unfold appendStyleAttrs. cbv zeta. destruct (String.eqb (findStyle attrs) ""); [exact H|]. destruct names; apply in_or_app; auto.
Qed.
Lemma bad_fraction v : bad_length E v -> lacks "%" v = true -> forall x, readFraction (E := E) v <> Ret x.
Proof.
  intros Hv Hl x. unfold readFraction. cbv zeta. destruct (hasSuffix (trimSpace v) "%") eqn:Hs.
  - exfalso. apply suffix_iff in Hs as (p & Hp). destruct Hv as [Ha _]. destruct (trim_split v Ha) as (l & r & Hv & _ & _).
    change (no_char "%" v = true) in Hl. rewrite Hv, Hp, !no_char_app in Hl. cbn in Hl. rewrite !andb_false_r in Hl. cbn in Hl. rewrite ?andb_false_r in Hl. discriminate.
  - apply obind_no, bad_basic, bad_trim, Hv.
Qed.
Lemma fl_stop attrs : bad_stop E attrs -> fails (fun c => c_inGrad c = true) (stopF (E := E) attrs).
Proof.
  intros H c Hc c' x. unfold stopF. erewrite bind_step by (unfold gets; reflexivity). rewrite Hc. apply (fun m (Q : never m) => Q c I c' x). apply fl_bind_l.
  destruct H as [attrs v Hi Hv|attrs v Hi Hv|attrs v Hi Hv Hl]; apply (append_in _ ["stop-color"; "stop-opacity"]%string) in Hi; attrs_in Hi;
    unfold stopAttr, is; cbn [a_name a_val String.eqb Ascii.eqb Bool.eqb]; apply fl_bind_l, fl_lift.
  - apply nc_colour, Hv. - apply bad_basic, Hv. - now apply bad_fraction.
Qed.
End L.

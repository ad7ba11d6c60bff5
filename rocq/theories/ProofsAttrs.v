(** * ProofsAttrs: the attribute loops of masks, uses, gradients, stops and the root *)
From Coq Require Import Lia.
From Verif Require Export SpecTree ProofsPath2 ProofsPath3 ProofsUnit ProofsColor ProofsStyle ProofsStyle2 ProofsShape ProofsDoc Logic.
Local Open Scope go_scope.

Section Attrs.
Context {E : Env}.
Notation F := (F E).
Notation cursor := (cursor E).
Notation lens vb e := (value_attr (is_length E vb e)).
Ltac attr_cases a :=
  cbn [value_attr has_attr existsb text_attr] in *; unfold is;
  repeat match goal with
  | |- context [String.eqb (a_name a) ?n] =>
    let H := fresh "Hn" in destruct (String.eqb (a_name a) n) eqn:H;
      [apply String.eqb_eq in H; rewrite H in *; cbn [String.eqb Ascii.eqb Bool.eqb orb] in * |]
  end;
  repeat match goal with
  | H : context [if String.eqb (a_name a) ?n then _ else _], H' : String.eqb (a_name a) ?n = false |- _ => rewrite H' in H
  end.
Ltac attr_step IH :=
  repeat match goal with H : exists _, _ /\ _ |- _ => destruct H as (? & ? & ?) end;
  first [ eapply IH; eassumption
        | unfold bind, ret; unfold cParseUnit;
          match goal with H : is_length E _ ?e _ _ |- _ => apply resolveUnit_length in H; cbn [ref_of] in H; rewrite H end;
          eapply IH; eassumption ].
Lemma mask_fold attrs : forall i0 x0 y0 w0 h0 i x y w h (c : cursor),
  let vb := sv_viewBox (c_svg c) in
  value_attr (fun s i => s <> EmptyString /\ i = s) "id" i0 attrs i ->
  lens vb OfWidth "x" x0 attrs x -> lens vb OfHeight "y" y0 attrs y -> lens vb OfWidth "width" w0 attrs w ->
  lens vb OfHeight "height" h0 attrs h ->
  foldM maskAttr (i0, x0, y0, w0, h0) attrs c = (c, Ret (i, x, y, w, h)).
Proof.
  induction attrs as [|a attrs IH]; intros i0 x0 y0 w0 h0 i x y w h c vb Hi Hx Hy Hw Hh.
  - cbn in *. subst. reflexivity.
  - cbn [foldM]. unfold bind at 1, maskAttr at 1. subst vb. attr_cases a.
    { destruct Hi as (j & (Hj & ->) & Hi). replace (String.length (a_val a) =? 0) with false.
      - unfold ret. eapply IH; eassumption.
      - destruct (a_val a); [congruence|reflexivity]. }
    all: attr_step IH.
Qed.
Lemma use_fold attrs : forall h0 x0 y0 x y (c : cursor),
  let vb := sv_viewBox (c_svg c) in
  lens vb OfWidth "x" x0 attrs x -> lens vb OfHeight "y" y0 attrs y ->
  foldM useAttr (h0, x0, y0) attrs c = (c, Ret (text_attr "href" h0 attrs, x, y)).
Proof.
  induction attrs as [|a attrs IH]; intros h0 x0 y0 x y c vb Hx Hy.
  - cbn in *. subst. reflexivity.
  - cbn [foldM]. unfold bind at 1, useAttr at 1. subst vb. attr_cases a. all: attr_step IH.
Qed.

(** ** gradients *)
Definition gc (c : cursor) (h0 : list (gradient E)) (g : gradient E) (gr : smap nat) (ps : list F) : cursor :=
  c_set_pc (set_points ps (c_pc c)) (c_set_gheap (h0 ++ [g]) (c_set_svg (sv_set_grads gr (c_svg c)) c)).
Definition reg (p : nat) (attrs : list attr) (gr : smap nat) : smap nat :=
  fold_left (fun gr a => if String.eqb (a_name a) "id" then mput (a_val a) p gr else gr) attrs gr.
Lemma nth_last {A} (h : list A) x : nth_error (h ++ [x]) (length h) = Some x.
Proof. rewrite nth_error_app2, Nat.sub_diag by lia. reflexivity. Qed.
Lemma set_nth_last {A} (h : list A) x y : set_nth (h ++ [x]) (length h) y = h ++ [y].
Proof. induction h as [|a h IH]; [reflexivity|]. cbn. rewrite IH. reflexivity. Qed.
Lemma onGrad_gc f c h0 g gr ps : c_grad c = Some (length h0) -> onGrad f (gc c h0 g gr ps) = (gc c h0 (f g) gr ps, Ret tt).
Proof. intros Hg. unfold onGrad. cbn [gc c_grad c_set_pc c_set_gheap c_set_svg c_gheap]. rewrite Hg, nth_last, set_nth_last. reflexivity. Qed.
Definition base_transform (base : matrix E) (s : string) (m : matrix E) : Prop :=
  exists fs, transform_text E s fs /\ m = fold_left (tfun_apply E) (rev fs) base.
Definition recast (u : gradUnits) (sp : spreadMethod) (m : matrix E) (g : gradient E) : gradient E :=
  mkGrad (gDirection g) (gStops g) (gBounds g) m sp u.
Lemma recast_same g : recast (gUnits g) (gSpread g) (gMatrix g) g = g.
Proof. destruct g; reflexivity. Qed.
Lemma unit_trim s u : one_of unit_words s u -> 
  (if String.eqb (trimSpace s) "userSpaceOnUse" then Some UserSpaceOnUse
   else if String.eqb (trimSpace s) "objectBoundingBox" then Some ObjectBoundingBox else None) = Some u.
Proof. intros (w & Hp & Hi). rewrite (padded_trim _ _ Hp). cbn in Hi. repeat (destruct Hi as [Hi|Hi]; [injection Hi as <- <-; reflexivity|]). destruct Hi. Qed.
Lemma spread_trim s u : one_of spread_words s u -> 
  (if String.eqb (trimSpace s) "pad" then Some PadSpread
   else if String.eqb (trimSpace s) "reflect" then Some ReflectSpread
   else if String.eqb (trimSpace s) "repeat" then Some RepeatSpread else None) = Some u.
Proof. intros (w & Hp & Hi). rewrite (padded_trim _ _ Hp). cbn in Hi. repeat (destruct Hi as [Hi|Hi]; [injection Hi as <- <-; reflexivity|]). destruct Hi. Qed.
(** one gradient attribute *)
Lemma gradAttr_step c h0 g gr ps st rest a r u sp m : c_grad c = Some (length h0) -> c_stack c = st :: rest ->
  value_attr (one_of unit_words) "gradientUnits" (gUnits g) (a :: r) u ->
  value_attr (one_of spread_words) "spreadMethod" (gSpread g) (a :: r) sp ->
  value_attr (base_transform (st_transform st)) "gradientTransform" (gMatrix g) (a :: r) m ->
  exists g' ps', readGradAttr a (gc c h0 g gr ps) = (gc c h0 g' gr ps', Ret tt) /\
  value_attr (one_of unit_words) "gradientUnits" (gUnits g') r u /\
  value_attr (one_of spread_words) "spreadMethod" (gSpread g') r sp /\
  value_attr (base_transform (st_transform st)) "gradientTransform" (gMatrix g') r m /\
  recast u sp m g' = recast u sp m g.
Proof.
  intros Hg Hst Hu Hs Hm. unfold readGradAttr. attr_cases a.
  - destruct Hm as (m1 & (fs & Ht & ->) & Hm).
    destruct (parseTransform_text (a_val a) fs (gc c h0 g gr ps) st rest Ht) as (c1 & H1 & ps' & ->); [exact Hst|].
    rewrite (bind_step _ _ _ _ _ H1).
    change (c_set_pc (set_points ps' (c_pc (gc c h0 g gr ps))) (gc c h0 g gr ps)) with (gc c h0 g gr ps').
    rewrite onGrad_gc by exact Hg. eexists _, ps'. split; [reflexivity|]. cbn. auto.
  - destruct Hu as (u1 & H1 & Hu). apply unit_trim in H1.
    destruct (String.eqb (trimSpace (a_val a)) "userSpaceOnUse").
    { injection H1 as <-. rewrite onGrad_gc by exact Hg. eexists _, ps. split; [reflexivity|]. cbn. auto. }
    destruct (String.eqb (trimSpace (a_val a)) "objectBoundingBox").
    { injection H1 as <-. rewrite onGrad_gc by exact Hg. eexists _, ps. split; [reflexivity|]. cbn. auto. }
    discriminate.
  - destruct Hs as (u1 & H1 & Hs). apply spread_trim in H1.
    destruct (String.eqb (trimSpace (a_val a)) "pad").
    { injection H1 as <-. rewrite onGrad_gc by exact Hg. eexists _, ps. split; [reflexivity|]. cbn. auto. }
    destruct (String.eqb (trimSpace (a_val a)) "reflect").
    { injection H1 as <-. rewrite onGrad_gc by exact Hg. eexists _, ps. split; [reflexivity|]. cbn. auto. }
    destruct (String.eqb (trimSpace (a_val a)) "repeat").
    { injection H1 as <-. rewrite onGrad_gc by exact Hg. eexists _, ps. split; [reflexivity|]. cbn. auto. }
    discriminate.
  - eexists _, _. split; [reflexivity|]. auto.
Qed.
(** attributes with other names do not matter to the three *)
Lemma gradAttr_other (g : gradient E) a r st u sp m : 
  existsb (String.eqb (a_name a)) ["gradientUnits"; "spreadMethod"; "gradientTransform"]%string = false ->
  value_attr (one_of unit_words) "gradientUnits" (gUnits g) (a :: r) u ->
  value_attr (one_of spread_words) "spreadMethod" (gSpread g) (a :: r) sp ->
  value_attr (base_transform (st_transform st)) "gradientTransform" (gMatrix g) (a :: r) m ->
  value_attr (one_of unit_words) "gradientUnits" (gUnits g) r u /\
  value_attr (one_of spread_words) "spreadMethod" (gSpread g) r sp /\
  value_attr (base_transform (st_transform st)) "gradientTransform" (gMatrix g) r m.
Proof.
  cbn [existsb value_attr]. intros H. apply Bool.orb_false_iff in H. destruct H as [-> H]. apply Bool.orb_false_iff in H. destruct H as [-> H].
  apply Bool.orb_false_iff in H. destruct H as [-> H]. auto.
Qed.
Lemma register_gc id c h0 g gr ps : c_grad c = Some (length h0) ->
  registerGrad id (gc c h0 g gr ps) = (gc c h0 g (mput id (length h0) gr) ps, Ret tt).
Proof. intros Hg. unfold registerGrad. cbn [gc c_grad c_set_pc c_set_gheap c_set_svg]. rewrite Hg. reflexivity. Qed.
Lemma lin_fold c h0 st rest attrs : c_grad c = Some (length h0) -> c_stack c = st :: rest -> forall x1 y1 x2 y2 g gr ps u sp m,
  value_attr (one_of unit_words) "gradientUnits" (gUnits g) attrs u ->
  value_attr (one_of spread_words) "spreadMethod" (gSpread g) attrs sp ->
  value_attr (base_transform (st_transform st)) "gradientTransform" (gMatrix g) attrs m ->
  exists ps', foldM linAttr (x1, y1, x2, y2) attrs (gc c h0 g gr ps)
    = (gc c h0 (recast u sp m g) (reg (length h0) attrs gr) ps',
       Ret (text_attr "x1" x1 attrs, text_attr "y1" y1 attrs, text_attr "x2" x2 attrs, text_attr "y2" y2 attrs)).
Proof.
  intros Hg Hst. induction attrs as [|a attrs IH]; intros x1 y1 x2 y2 g gr ps u sp m Hu Hs Hm.
  - cbn in Hu, Hs, Hm. subst. exists ps. rewrite recast_same. reflexivity.
  - cbn [foldM reg fold_left text_attr]. unfold bind at 1, linAttr at 1, is.
    destruct (String.eqb (a_name a) "id") eqn:N1.
    { apply String.eqb_eq in N1. destruct (gradAttr_other g a attrs st u sp m) as (Hu' & Hs' & Hm'); auto; [rewrite N1; reflexivity|].
      rewrite N1. cbn [String.eqb Ascii.eqb Bool.eqb]. rewrite (bind_step _ _ _ _ _ (register_gc (a_val a) c h0 g gr ps Hg)). unfold ret at 1. cbv beta iota. exact (IH _ _ _ _ _ _ _ _ _ _ Hu' Hs' Hm'). }
    destruct (String.eqb (a_name a) "x1") eqn:N2.
    { apply String.eqb_eq in N2. destruct (gradAttr_other g a attrs st u sp m) as (Hu' & Hs' & Hm'); auto; [rewrite N2; reflexivity|].
      rewrite N2. cbn [String.eqb Ascii.eqb Bool.eqb]. unfold ret at 1. cbv beta iota. exact (IH _ _ _ _ _ _ _ _ _ _ Hu' Hs' Hm'). }
    destruct (String.eqb (a_name a) "y1") eqn:N3.
    { apply String.eqb_eq in N3. destruct (gradAttr_other g a attrs st u sp m) as (Hu' & Hs' & Hm'); auto; [rewrite N3; reflexivity|].
      rewrite N3. cbn [String.eqb Ascii.eqb Bool.eqb]. unfold ret at 1. cbv beta iota. exact (IH _ _ _ _ _ _ _ _ _ _ Hu' Hs' Hm'). }
    destruct (String.eqb (a_name a) "x2") eqn:N4.
    { apply String.eqb_eq in N4. destruct (gradAttr_other g a attrs st u sp m) as (Hu' & Hs' & Hm'); auto; [rewrite N4; reflexivity|].
      rewrite N4. cbn [String.eqb Ascii.eqb Bool.eqb]. unfold ret at 1. cbv beta iota. exact (IH _ _ _ _ _ _ _ _ _ _ Hu' Hs' Hm'). }
    destruct (String.eqb (a_name a) "y2") eqn:N5.
    { apply String.eqb_eq in N5. destruct (gradAttr_other g a attrs st u sp m) as (Hu' & Hs' & Hm'); auto; [rewrite N5; reflexivity|].
      unfold ret at 1. cbv beta iota. exact (IH _ _ _ _ _ _ _ _ _ _ Hu' Hs' Hm'). }
    destruct (gradAttr_step c h0 g gr ps st rest a attrs u sp m Hg Hst Hu Hs Hm) as (g' & ps' & H1 & Hu' & Hs' & Hm' & Hr).
    rewrite (bind_step _ _ _ _ _ H1). unfold ret at 1. cbv beta iota. rewrite <- Hr. exact (IH _ _ _ _ _ _ _ _ _ _ Hu' Hs' Hm').
Qed.
Definition otext (n : string) (o : option string) (attrs : list attr) : option string :=
  fold_left (fun o a => if String.eqb (a_name a) n then Some (a_val a) else o) attrs o.
Lemma otext_text n attrs : forall o d, match otext n o attrs with Some s => s | None => d end
  = text_attr n (match o with Some s => s | None => d end) attrs.
Proof.
  induction attrs as [|a attrs IH]; intros o d; [reflexivity|]. cbn [otext fold_left text_attr]. fold (otext n).
  change (fold_left _ attrs ?x) with (otext n x attrs). rewrite IH. destruct (String.eqb (a_name a) n); reflexivity.
Qed.
Lemma rad_fold c h0 st rest attrs : c_grad c = Some (length h0) -> c_stack c = st :: rest -> forall cx cy fx fy r fr g gr ps u sp m,
  value_attr (one_of unit_words) "gradientUnits" (gUnits g) attrs u ->
  value_attr (one_of spread_words) "spreadMethod" (gSpread g) attrs sp ->
  value_attr (base_transform (st_transform st)) "gradientTransform" (gMatrix g) attrs m ->
  exists ps', foldM radAttr (cx, cy, fx, fy, r, fr) attrs (gc c h0 g gr ps)
    = (gc c h0 (recast u sp m g) (reg (length h0) attrs gr) ps',
       Ret (text_attr "cx" cx attrs, text_attr "cy" cy attrs, otext "fx" fx attrs, otext "fy" fy attrs, text_attr "r" r attrs, text_attr "fr" fr attrs)).
Proof.
  intros Hg Hst. induction attrs as [|a attrs IH]; intros cx cy fx fy r fr g gr ps u sp m Hu Hs Hm.
  - cbn in Hu, Hs, Hm. subst. exists ps. rewrite recast_same. reflexivity.
  - cbn [foldM reg fold_left text_attr otext]. unfold bind at 1, radAttr at 1, is.
    Local Ltac nm a n N := destruct (String.eqb (a_name a) n) eqn:N.
    nm a "id" N1.
    { apply String.eqb_eq in N1. destruct (gradAttr_other g a attrs st u sp m) as (Hu' & Hs' & Hm'); auto; [rewrite N1; reflexivity|].
      rewrite N1. cbn [String.eqb Ascii.eqb Bool.eqb]. rewrite (bind_step _ _ _ _ _ (register_gc (a_val a) c h0 g gr ps Hg)). unfold ret at 1. cbv beta iota. exact (IH _ _ _ _ _ _ _ _ _ _ _ _ Hu' Hs' Hm'). }
    Local Ltac same a g attrs st u sp m N IH := 
      apply String.eqb_eq in N; destruct (gradAttr_other g a attrs st u sp m) as (Hu' & Hs' & Hm'); auto; [rewrite N; reflexivity|];
      try rewrite N; cbn [String.eqb Ascii.eqb Bool.eqb]; unfold ret at 1; cbv beta iota; exact (IH _ _ _ _ _ _ _ _ _ _ _ _ Hu' Hs' Hm').
    nm a "cx" N2. { same a g attrs st u sp m N2 IH. }
    nm a "cy" N3. { same a g attrs st u sp m N3 IH. }
    nm a "fx" N4. { same a g attrs st u sp m N4 IH. }
    nm a "fy" N5. { same a g attrs st u sp m N5 IH. }
    nm a "r" N6. { same a g attrs st u sp m N6 IH. }
    nm a "fr" N7. { same a g attrs st u sp m N7 IH. }
    destruct (gradAttr_step c h0 g gr ps st rest a attrs u sp m Hg Hst Hu Hs Hm) as (g' & ps' & H1 & Hu' & Hs' & Hm' & Hr).
    rewrite (bind_step _ _ _ _ _ H1). unfold ret at 1. cbv beta iota. rewrite <- Hr. exact (IH _ _ _ _ _ _ _ _ _ _ _ _ Hu' Hs' Hm').
Qed.

(** registration *)
Lemma mget_put {A} i k (a : A) m : mget i (mput k a m) = if String.eqb i k then Some a else mget i m.
Proof.
  unfold mput. cbn [mget]. destruct (String.eqb i k) eqn:H; [reflexivity|].
  induction m as [|[k' v] m IH]; [reflexivity|]. cbn [filter mget fst]. destruct (String.eqb k k') eqn:H1.
  - apply String.eqb_eq in H1. subst k'. cbn [negb]. rewrite H. exact IH.
  - cbn [negb mget]. destruct (String.eqb i k'); [reflexivity|exact IH].
Qed.
Lemma reg_none p attrs : forall gr, has_attr "id" attrs = false -> reg p attrs gr = gr.
Proof.
  induction attrs as [|a attrs IH]; intros gr H; [reflexivity|]. cbn [has_attr existsb] in H. apply Bool.orb_false_iff in H. destruct H as [H1 H2].
  cbn [reg fold_left]. rewrite H1. apply IH, H2.
Qed.
Lemma reg_id p attrs id gr : attr_id attrs id -> reg p attrs gr = match id with Some i => mput i p gr | None => gr end.
Proof.
  destruct id as [i|]; cbn; [|apply reg_none]. intros (l & r & -> & Hl & Hr). unfold reg. rewrite fold_left_app.
  fold (reg p l gr). rewrite (reg_none _ _ _ Hl). cbn [fold_left a_name a_val String.eqb Ascii.eqb Bool.eqb]. apply reg_none, Hr.
Qed.
Lemma attrID_text attrs : attrID attrs = text_attr "id" "" attrs.
Proof.
  unfold attrID. cut (forall d, fold_left (fun id a => if is a "id" then a_val a else id) attrs d = text_attr "id" d attrs); [intros H; apply H|].
  induction attrs as [|a attrs IH]; intros d; [reflexivity|]. cbn [fold_left text_attr]. apply IH.
Qed.

(** ** stops *)
Context (Hnames : name_table E).
Definition pair_of (a : attr) := (a_name a, a_val a).
Lemma fraction_ok s x : is_fraction E s x -> readFraction s = Ret x.
Proof.
  intros (l & w & r & v & Hl & Hr & Hw & Hv & H). unfold readFraction.
  assert (Hb : parseBasicFloat (E := E) w = Ret (fmul E v (fnum E 1))).
  { rewrite (parseBasicFloat_number w (fmul E v (fnum E 1))); [reflexivity|].
    exists ""%string, w, ""%string, UNone, ""%string, v. cbn [unit_text String.append]. rewrite sapp_nil_r. auto 9. }
  pose proof (number_ne _ Hw) as Hne. pose proof (solid_chars _ (number_plain _ Hw)) as Hso.
  destruct H as [[-> ->]|[-> ->]].
  - rewrite (trimSpace_pad l w r) by assumption.
    rewrite (no_suffix w "%" "%"%char EmptyString Hw eq_refl eq_refl) by discriminate. rewrite Hb. reflexivity.
  - assert (solid (w ++ "%") = true).
    { apply solid_app; try assumption; try reflexivity; try discriminate. unfold solid in Hso. apply andb_prop in Hso. tauto. }
    replace (l ++ w ++ "%" ++ r)%string with (l ++ (w ++ "%") ++ r)%string by (rewrite !sapp_assoc; reflexivity).
    rewrite (trimSpace_pad l (w ++ "%") r) by assumption. rewrite hasSuffix_app, trimSuffix_app, Hb. reflexivity.
Qed.
Lemma stop_fold l : forall (s : gradStop E) (c : cursor) co o op,
  last_value (fun v c => exists q, colour E v q /\ c = stop_color q) "stop-color" (stColor s) (map pair_of l) co ->
  last_value (is_fraction E) "offset" (stOffset s) (map pair_of l) o ->
  last_value (is_number E) "stop-opacity" (stOpacity s) (map pair_of l) op ->
  foldM stopAttr s l c = (c, Ret (mkStop co o op)).
Proof.
  induction l as [|[n v] l IH]; intros s c co o op Hc Ho Hp.
  - cbn in *. subst. destruct s; reflexivity.
  - cbn [map pair_of a_name a_val last_value] in *. cbn [foldM].
    destruct (String.eqb n "offset") eqn:N1.
    { apply String.eqb_eq in N1. subst n. cbn [String.eqb Ascii.eqb Bool.eqb] in *. destruct Ho as (y & Hy & Ho).
      erewrite bind_step by (unfold stopAttr, is; cbn [a_name a_val String.eqb Ascii.eqb Bool.eqb]; erewrite bind_step by (unfold lift; rewrite (fraction_ok _ _ Hy); reflexivity); reflexivity).
      apply IH; assumption. }
    destruct (String.eqb n "stop-color") eqn:N2.
    { apply String.eqb_eq in N2. subst n. cbn [String.eqb Ascii.eqb Bool.eqb] in *. destruct Hc as (y & (q & Hq & ->) & Hc).
      erewrite bind_step by (apply (stop_colour Hnames); exact Hq). apply IH; assumption. }
    destruct (String.eqb n "stop-opacity") eqn:N3.
    { apply String.eqb_eq in N3. subst n. cbn [String.eqb Ascii.eqb Bool.eqb] in *. destruct Hp as (y & Hy & Hp).
      erewrite bind_step by (unfold stopAttr, is; cbn [a_name a_val String.eqb Ascii.eqb Bool.eqb]; erewrite bind_step by (unfold lift; rewrite (parseBasicFloat_number _ _ Hy); reflexivity); reflexivity).
      apply IH; assumption. }
    erewrite bind_step by (unfold stopAttr, is; cbn [a_name a_val]; rewrite N1, N2, N3; reflexivity). apply IH; assumption.
Qed.
Lemma cut1_none d s : lacks d s = true -> cut1 d s = None.
Proof. induction s as [|c s IH]; [reflexivity|]. cbn [lacks all_chars cut1]. intros H. apply andb_prop in H as [H1 H2]. apply negb_true_iff in H1. rewrite H1. unfold lacks in IH. rewrite (IH H2). reflexivity. Qed.
Lemma cut1_cons d n v : lacks d n = true -> cut1 d (n ++ String d v) = Some (n, v).
Proof.
  induction n as [|c n IH]; intros H.
  - cbn. rewrite Ascii.eqb_refl. reflexivity.
  - cbn [lacks all_chars] in H. apply andb_prop in H as [H1 H2]. apply negb_true_iff in H1. cbn [String.append cut1]. rewrite H1. unfold lacks in IH. rewrite (IH H2). reflexivity.
Qed.
Lemma padded_solid v w : padded v w -> all_chars is_ascii w = true.
Proof. intros (l & r & _ & _ & _ & _ & H). exact H. Qed.
Definition kv_of (s : string) : list attr :=
  match cut1 ":" s with Some (k, v) => [mkAttr (toLower E (trimSpace k)) (trimSpace v)] | None => [] end.
Lemma decl_kv s ds : decl_text s ds -> map pair_of (kv_of s) = ds.
Proof.
  intros [n v k w Pn Pv Cn Cv|x Hx]; unfold kv_of.
  - change (n ++ ":" ++ v)%string with (n ++ String ":" v)%string. rewrite cut1_cons by exact Cn. cbn [map pair_of a_name a_val].
    rewrite (padded_trim _ _ Pn), (padded_trim _ _ Pv), toLower_low by (eapply padded_solid; eauto). reflexivity.
  - rewrite cut1_none by exact Hx. reflexivity.
Qed.
Lemma style_kvs s ds : style_text s ds -> map pair_of (flat_map kv_of (split1 ";" s)) = ds.
Proof.
  induction 1 as [s ds Hs Hd|s ds t ds' Hs Hd _ IH].
  - rewrite split1_none by exact Hs. cbn [flat_map]. rewrite app_nil_r. apply decl_kv, Hd.
  - change (s ++ ";" ++ t)%string with (s ++ String ";" t)%string. rewrite split1_cons by exact Hs. cbn [flat_map].
    rewrite map_app, IH, (decl_kv _ _ Hd). reflexivity.
Qed.
Lemma findStyle_none attrs : has_attr "style" attrs = false -> findStyle attrs = EmptyString.
Proof. induction attrs as [|a attrs IH]; [reflexivity|]. cbn. destruct (String.eqb (a_name a) "style"); [discriminate|exact IH]. Qed.
Lemma findStyle_once attrs s : attr_once "style" attrs s -> findStyle attrs = s.
Proof.
  intros (l & r & -> & Hl & _). induction l as [|a l IH]; [reflexivity|]. cbn in Hl. apply Bool.orb_false_iff in Hl. destruct Hl as [H1 H2].
  cbn [app findStyle]. rewrite H1. apply IH, H2.
Qed.
Lemma stop_decls_reads attrs ds : stop_decls attrs ds -> 
  map pair_of (appendStyleAttrs (E := E) attrs ["stop-color"; "stop-opacity"]%string) = ds.
Proof.
  intros (sds & -> & H). unfold appendStyleAttrs.
  assert (Hf : forall l, map pair_of (filter (fun a => existsb (String.eqb (a_name a)) ["stop-color"; "stop-opacity"]%string) l)
    = filter (fun d => String.eqb (fst d) "stop-color" || String.eqb (fst d) "stop-opacity") (map pair_of l)).
  { induction l as [|a l IH]; [reflexivity|]. cbn [filter map fst]. change (fst (pair_of a)) with (a_name a).
    assert (H1 : existsb (String.eqb (a_name a)) ["stop-color"; "stop-opacity"]%string = String.eqb (a_name a) "stop-color" || String.eqb (a_name a) "stop-opacity")
      by (cbn [existsb]; rewrite Bool.orb_false_r; reflexivity).
    rewrite H1. destruct (String.eqb (a_name a) "stop-color" || String.eqb (a_name a) "stop-opacity"); cbn [map]; rewrite IH; reflexivity. }
  destruct H as [[H ->]|(s & Hs & Ht)].
  - rewrite findStyle_none by exact H. cbn. rewrite app_nil_r. reflexivity.
  - rewrite (findStyle_once _ _ Hs). apply style_kvs in Ht.
    fold kv_of. destruct (String.eqb s "") eqn:He.
    + apply String.eqb_eq in He. subst s. cbn in Ht. subst sds. cbn. rewrite app_nil_r. reflexivity.
    + change (fun s0 : string => match cut1 ":" s0 with Some (k, v) => [mkAttr (toLower E (trimSpace k)) (trimSpace v)] | None => [] end) with kv_of.
      rewrite map_app, Hf, Ht. reflexivity.
Qed.
Lemma stopF_ok c h0 g gr ps attrs s : c_grad c = Some (length h0) -> c_inGrad c = true -> is_stop E attrs s ->
  stopF attrs (gc c h0 g gr ps) = (gc c h0 (add_stop E s g) gr ps, Ret tt).
Proof.
  intros Hg Hi (ds & co & o & op & Hd & Hc & Ho & Hp & ->). unfold stopF.
  erewrite bind_step by (unfold gets; reflexivity). change (c_inGrad (gc c h0 g gr ps)) with (c_inGrad c). rewrite Hi.
  apply stop_decls_reads in Hd. rewrite <- Hd in Hc, Ho, Hp.
  erewrite bind_step by (apply (stop_fold _ (mkStop None (fnum E 0) (fnum E 1))); eassumption).
  apply onGrad_gc, Hg.
Qed.

(** ** the root *)
Definition rc (c : cursor) (vb : bounds E) (wd ht : string) (ps : list F) : cursor :=
  c_set_pc (set_points ps (c_pc c)) (c_set_svg (sv_set_height ht (sv_set_width wd (sv_set_viewBox vb (c_svg c)))) c).
Lemma svg_fold c attrs : forall vb0 x y w h width height w0 h0 wd ht ps,
  value_attr four "viewBox" (bX vb0, bY vb0, bW vb0, bH vb0) attrs (x, y, w, h) ->
  value_attr (is_number E) "width" w0 attrs width -> value_attr (is_number E) "height" h0 attrs height ->
  exists ps', foldM svgAttr (w0, h0) attrs (rc c vb0 wd ht ps)
    = (rc c (mkB x y w h) (text_attr "width" wd attrs) (text_attr "height" ht attrs) ps', Ret (width, height)).
Proof.
  induction attrs as [|[n v] attrs IH]; intros vb0 x y w h width height w0 h0 wd ht ps Hv Hw Hh.
  - cbn in *. injection Hv as -> -> -> ->. subst. exists ps. destruct vb0; reflexivity.
  - cbn [value_attr text_attr a_name a_val foldM] in *.
    destruct (String.eqb n "viewBox") eqn:N1.
    { apply String.eqb_eq in N1. subst n. cbn [String.eqb Ascii.eqb Bool.eqb] in *. destruct Hv as ((((x1 & y1) & w1) & h1) & Hq & Hv).
      erewrite bind_step. 2:{ unfold svgAttr, is. cbn [a_name a_val String.eqb Ascii.eqb Bool.eqb].
        erewrite bind_step by (unfold attempt, cGetPoints, liftP; rewrite getPoints_numbers, (numbers_spelled _ _ Hq); reflexivity).
        erewrite bind_step by (unfold cPoints, gets; reflexivity). cbn [fst snd c_pc c_set_pc set_points pc_points].
        erewrite bind_step by (unfold onSvg, modify; reflexivity). reflexivity. }
      exact (IH (mkB x1 y1 w1 h1) x y w h width height w0 h0 wd ht [x1; y1; w1; h1] Hv Hw Hh). }
    destruct (String.eqb n "width") eqn:N2.
    { apply String.eqb_eq in N2. subst n. cbn [String.eqb Ascii.eqb Bool.eqb] in *. destruct Hw as (w1 & Hq & Hw).
      erewrite bind_step. 2:{ unfold svgAttr, is. cbn [a_name a_val String.eqb Ascii.eqb Bool.eqb].
        erewrite bind_step by (unfold onSvg, modify; reflexivity).
        erewrite bind_step by (unfold lift; rewrite (parseBasicFloat_number _ _ Hq); reflexivity). reflexivity. }
      exact (IH vb0 x y w h width height w1 h0 v ht ps Hv Hw Hh). }
    destruct (String.eqb n "height") eqn:N3.
    { apply String.eqb_eq in N3. subst n. cbn [String.eqb Ascii.eqb Bool.eqb] in *. destruct Hh as (h1 & Hq & Hh).
      erewrite bind_step. 2:{ unfold svgAttr, is. cbn [a_name a_val String.eqb Ascii.eqb Bool.eqb].
        erewrite bind_step by (unfold onSvg, modify; reflexivity).
        erewrite bind_step by (unfold lift; rewrite (parseBasicFloat_number _ _ Hq); reflexivity). reflexivity. }
      exact (IH vb0 x y w h width height w0 h1 wd v ps Hv Hw Hh). }
    erewrite bind_step by (unfold svgAttr, is; cbn [a_name a_val]; rewrite N1, N2, N3; reflexivity).
    exact (IH vb0 x y w h width height w0 h0 wd ht ps Hv Hw Hh).
Qed.
Lemma svgF_ok (c : cursor) attrs vb : view_box attrs vb -> exists ps,
  svgF attrs c = (rc c vb (text_attr "width" (sv_width (c_svg c)) attrs) (text_attr "height" (sv_height (c_svg c)) attrs) ps, Ret tt).
Proof.
  intros (x & y & w & h & wd & ht & Hv & Hw & Hh & ->). unfold svgF.
  erewrite bind_step by (unfold onSvg, modify; reflexivity).
  destruct (svg_fold c attrs (mkB (fnum E 0) (fnum E 0) (fnum E 0) (fnum E 0)) x y w h wd ht (fnum E 0) (fnum E 0) (sv_width (c_svg c)) (sv_height (c_svg c)) (pc_points (c_pc c)) Hv Hw Hh) as (ps & H).
  exists ps.
  erewrite bind_step. 2:{ refine (eq_trans _ H). f_equal. unfold rc. destruct c as [p s ? ? ? ? ? ? ? ? ? ?], p, s; reflexivity. }
  cbv beta iota. unfold onSvg, modify. unfold rc. cbn [c_svg c_set_pc c_set_svg sv_viewBox sv_set_viewBox sv_set_height sv_set_width bX bY bW bH].
  unfold f0. destruct (feqb E w (fnum E 0)), (feqb E h (fnum E 0)) eqn:Hhh; cbn [bX bY bW bH]; rewrite ?Hhh; reflexivity.
Qed.
End Attrs.

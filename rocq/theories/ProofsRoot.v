(** * ProofsRoot: the root element *)
From Coq Require Import Lia.
From Verif Require Export ProofsTree2.
Local Open Scope go_scope.

Section Root.
Context {E : Env}.
Notation cursor := (cursor E).

Lemma root_reads (fuel : nat) (attrs : list attr) (vb : bounds E) (c : cursor) : view_box attrs vb ->
  exists df c', drawFuncs fuel "svg" = Some df /\ df attrs c = (c', Ret tt) /\ sv_viewBox (c_svg c') = vb
    /\ sv_width (c_svg c') = text_attr "width" (sv_width (c_svg c)) attrs
    /\ sv_height (c_svg c') = text_attr "height" (sv_height (c_svg c)) attrs.
Proof.
  intros H. destruct (svgF_ok c attrs vb H) as (ps & Hr). exists svgF. eexists. split; [reflexivity|]. split; [exact Hr|]. repeat split.
Qed.
Lemma foldM_app {A L} (f : L -> A -> @C E L) a : forall b l c, foldM f l (a ++ b) c = bind (foldM f l a) (fun l' => foldM f l' b) c.
Proof.
  induction a as [|x a IH]; intros b l c; [reflexivity|]. cbn [app foldM].
  unfold bind. destruct (f l x c) as [c1 [l1|e| |]]; try reflexivity. rewrite IH. reflexivity.
Qed.
Lemma root_fails (fuel : nat) (before after : list attr) (s : string) (vs : list (F E)) (vb : bounds E) (c : cursor) :
  view_box before vb -> spells_numbers E s vs -> length vs <> 4 ->
  element_fails fuel "svg" (before ++ mkAttr "viewBox" s :: after) c ErrParamMismatch.
Proof.
  intros (x & y & w & h & wd & ht & Hv & Hw & Hh & _) Hs Hl. exists svgF.
  destruct (svg_fold c before (mkB (fnum E 0) (fnum E 0) (fnum E 0) (fnum E 0)) x y w h wd ht (fnum E 0) (fnum E 0) (sv_width (c_svg c)) (sv_height (c_svg c)) (pc_points (c_pc c)) Hv Hw Hh) as (ps & H).
  match type of H with _ = (?d, _) => set (c1 := d) in H end.
  assert (Ha : exists c2, svgAttr (wd, ht) (mkAttr "viewBox" s) c1 = (c2, Err ErrParamMismatch)).
  { unfold svgAttr, is. cbn [a_name a_val String.eqb Ascii.eqb Bool.eqb].
    erewrite bind_step by (unfold attempt, cGetPoints, liftP; rewrite getPoints_numbers, (numbers_spelled _ _ Hs); reflexivity).
    erewrite bind_step by (unfold cPoints, gets; reflexivity). cbn [c_pc c_set_pc set_points pc_points].
    destruct vs as [|? [|? [|? [|? [|? vs]]]]]; try (eexists; reflexivity). exfalso. apply Hl. reflexivity. }
  destruct Ha as (c2 & Ha). exists c2. split; [reflexivity|]. unfold svgF.
  erewrite bind_step by (unfold onSvg, modify; reflexivity).
  assert (Hf : foldM svgAttr (fnum E 0, fnum E 0) (before ++ mkAttr "viewBox" s :: after)
     (c_set_svg (sv_set_viewBox (mkB (fnum E 0) (fnum E 0) (fnum E 0) (fnum E 0)) (c_svg c)) c) = (c2, Err ErrParamMismatch)).
  { rewrite foldM_app. erewrite bind_step. 2:{ refine (eq_trans _ H). f_equal. unfold rc. destruct c as [p sv ? ? ? ? ? ? ? ? ? ?], p, sv; reflexivity. }
    cbn [foldM]. unfold bind. rewrite Ha. reflexivity. }
  unfold bind at 1. rewrite Hf. reflexivity.
Qed.
End Root.

(** ** use and gradients from any state *)
Section Any.
Context {E : Env}.
Notation cursor := (cursor E).
Lemma use_element_any (SH : bounds E -> point E -> string -> list attr -> path -> Prop) (md : errorMode) (m0 k : nat) (HSH : faithful md m0 SH) (Hnames : name_table E)
  (fuel : nat) (c : cursor) grads defs attrs st rest id x y ts ps off p0 :
  let vb := sv_viewBox (c_svg c) in
  m0 + k <= fuel -> pc_mode (c_pc c) = md -> sees c grads -> defs_agree defs (sv_defs (c_svg c)) -> c_stack c = st :: rest -> pc_path (c_pc c) = [] ->
  text_attr "href" "" attrs = ("#" ++ id)%string ->
  length_attr vb OfWidth "x" attrs x -> length_attr vb OfHeight "y" attrs y ->
  defs id = Some ts -> traces E vb grads defs k (x, y) st ts ps off -> outlines E SH vb [] ps p0 ->
  exists df c', drawFuncs (S fuel) "use" = Some df /\ df attrs c = (c', Ret tt)
    /\ outlines E SH vb [] ps (pc_path (c_pc c'))
    /\ c_stack c' = c_stack c /\ offset c' = (fnum E 0, fnum E 0)
    /\ c' = c_set_pc (c_pc c') c.
Proof.
  intros vb Hfuel HM Hs Hda Hc Hp Hh Hx Hy Hg Htr Hol. exists (useF (S fuel)).
  assert (Hpp : pc_path (c_pc c) = [] <-> @nil op = []) by (rewrite Hp; tauto).
  destruct (use_definition SH md m0 vb k fuel Hfuel fuel grads defs attrs st id x y ts ps off c rest [] p0 (trace_run SH md m0 HSH Hnames vb k fuel Hfuel grads defs k (x, y) st ts ps off Htr fuel Hfuel)
    HM eq_refl Hs Hda Hc Hh Hx Hy Hg Hpp Hol) as (pc2 & H1 & H2 & H3 & H4 & H5). rewrite Hp in H4.
  exists (c_set_pc pc2 c). split; [reflexivity|]. split; [exact H1|]. split; [exact H4|]. split; [reflexivity|]. split; [exact H2|reflexivity].
Qed.
Lemma gradient_element (Hnames : name_table E)
  (fuel : nat) (grads : string -> option (gradient E)) par name attrs kids st id g g' (c : cursor) rest :
  let vb := sv_viewBox (c_svg c) in
  styled E vb grads par attrs st ->
  gradient_of E vb name (part_of Transform st) attrs [] g -> attr_id attrs id -> grad_kids E vb id grads st kids g g' ->
  c_stack c = par :: rest -> c_inTitle c = false -> c_inDesc c = false -> pc_path (c_pc c) = [] -> sees c grads ->
  exists c', mapM (stepToken (S fuel)) (tokens (Elem name attrs kids)) c = (c', Ret tt) /\ sees c' (declare E id g' grads)
    /\ c_stack c' = c_stack c /\ sv_paths (c_svg c') = sv_paths (c_svg c).
Proof.
  intros vb Hst Hg Hi Hk Hc HT HD HP Hs.
  destruct (grad_element Hnames vb fuel grads par name attrs kids st id g g' c rest Hst Hg Hi Hk Hc (conj eq_refl (conj HT (conj HD HP))) Hs) as (c' & R & Se & p & h & gr & ps & ->).
  eexists. split; [exact R|]. split; [exact Se|]. split; reflexivity.
Qed.
Lemma grad_kids_stops (vb : bounds E) id grads par kids g g' : grad_kids E vb id grads par kids g g' ->
  exists ss, gStops g' = gStops g ++ ss /\ gDirection g' = gDirection g /\ gUnits g' = gUnits g /\ gSpread g' = gSpread g
    /\ gMatrix g' = gMatrix g /\ Forall2 (is_stop E) (stop_elements kids) ss.
Proof.
  induction 1 as [g|s r g g' _ IH|r g g' _ IH|attrs kids t st' s r g g' Hst Ht Hs _ IH]; try exact IH.
  - exists []. rewrite app_nil_r. repeat split. constructor.
  - destruct IH as (ss & H1 & H2 & H3 & H4 & H5 & H6). exists (s :: ss). cbn [add_stop gStops gDirection gUnits gSpread gMatrix] in *.
    rewrite <- app_assoc in H1. repeat split; auto. cbn. constructor; assumption.
Qed.
End Any.

Section Refs.
Context {E : Env}.
Notation cursor := (cursor E).
Lemma references (Hnames : name_table E) (c : cursor) grads v id (st : style E) : sees c grads -> url_ref v id ->
  let seen old := match grads id with Some g => PGrad (with_stops E g old) | None => PPlain 0 0 0 255 end in
  readStyleAttr st "fill" v c = (c, Ret (put_part FillPaint (Some (seen (part_of FillPaint st))) st))
  /\ readStyleAttr st "stroke" v c = (c, Ret (put_part StrokePaint (Some (seen (part_of StrokePaint st))) st)).
Proof.
  intros Hs Hu seen.
  assert (Hp : forall old, is_paint E grads old v (Some (seen old))).
  { intros old. unfold seen. destruct (grads id) as [g|] eqn:Hg; [eapply paint_url; eassumption|eapply paint_no_url; eassumption]. }
  split; (unfold readStyleAttr; cbn [String.eqb Ascii.eqb Bool.eqb]).
  - rewrite (is_paint_fill Hnames grads _ v _ c st s_set_filler (Hp _) Hs). f_equal. f_equal. apply style_ext. intros []; reflexivity.
  - rewrite (is_paint_fill Hnames grads _ v _ c st s_set_liner (Hp _) Hs). f_equal. f_equal. apply style_ext. intros []; reflexivity.
Qed.
Lemma document_masks (SH : bounds E -> point E -> string -> list attr -> path -> Prop) (mode : errorMode) (m0 : nat) (HSH : faithful mode m0 SH) (Hnames : name_table E) fuel lenient dep ns vb w :
  m0 + dep <= fuel -> document E SH lenient dep ns vb w -> (lenient = true -> mode <> StrictErrorMode) ->
  exists s log, parse (S fuel) mode (flat_map tokens ns) TermEOF = PSvg s None log
    /\ Forall2 (drawn E SH vb) (w_figs E w) (sv_paths s)
    /\ (forall id, w_masks E w id = None -> mget id (sv_masks s) = None)
    /\ forall id b figs, w_masks E w id = Some (b, figs) ->
         exists m, mget id (sv_masks s) = Some m /\ mk_id m = id /\ (mk_x m, mk_y m, mk_w m, mk_h m) = b /\ Forall2 (drawn E SH vb) figs (mk_paths m).
Proof.
  intros Hf Hd Hl. destruct (document_parses_any SH mode m0 HSH Hnames fuel lenient dep ns vb w Hf Hd Hl) as (s & log & H & (_ & _ & _ & Hp & Hm) & _).
  exists s, log. split; [exact H|]. split; [exact Hp|]. split.
  - intros id Hid. specialize (Hm id). rewrite Hid in Hm. destruct (mget id (sv_masks s)); [destruct Hm|reflexivity].
  - intros id b figs Hid. specialize (Hm id). rewrite Hid in Hm. destruct (mget id (sv_masks s)) as [m|]; [|destruct Hm].
    destruct Hm as (H1 & H2 & H3). exists m. auto.
Qed.
End Refs.

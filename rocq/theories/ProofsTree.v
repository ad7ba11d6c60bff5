(** * ProofsTree: the parser computes the world a document denotes *)
From Coq Require Import Lia.
From Verif Require Export ProofsAttrs ProofsFrame.
Local Open Scope go_scope.

Section PT.
Context {E : Env} (SH : bounds E -> point E -> string -> list attr -> path -> Prop) (md : errorMode) (m0 : nat) (HSH : faithful md m0 SH) (Hnames : name_table E).
Context (vb : bounds E) (lenient : bool) (dep : nat) (wd ht : string) (fuel : nat) (Hfuel : m0 + dep <= fuel).
Notation F := (F E).
Notation cursor := (cursor E).
Notation figure := (figure E).
Notation world := (world E).
Notation mask_box := (mask_box E).

Definition flushed (c : cursor) : smap (list definition) :=
  match c_curDef c with [] => sv_defs (c_svg c) | d :: _ => mput (d_id d) (c_curDef c) (sv_defs (c_svg c)) end.
Definition masks_agree (ms : string -> option (mask_box * list figure)) (m : smap (svgMask E)) : Prop :=
  forall id, match ms id, mget id m with
             | Some a, Some mk => mask_drawn E SH vb id a mk
             | None, None => True
             | _, _ => False
             end.
Definition figs_agree (mk : option (string * mask_box * list figure)) (figs : list figure) (c : cursor) : Prop :=
  match mk with
  | None => c_inMask c = false /\ c_mask c = None /\ Forall2 (drawn E SH vb) figs (sv_paths (c_svg c))
  | Some (id, b, outer) => c_inMask c = true /\ (exists m, c_mask c = Some m /\ mask_drawn E SH vb id (b, figs) m)
                           /\ Forall2 (drawn E SH vb) outer (sv_paths (c_svg c))
  end.
Definition quiet (p : pcur E) : Prop := (pc_curX p, pc_curY p) = origin E /\ pc_path p = [] /\ pc_mode p = md /\ (lenient = true -> md <> StrictErrorMode).
(** everything but the gradients *)
Record most (d : bool) mk (w : world) (c : cursor) : Prop := mkMost {
  h_vb : sv_viewBox (c_svg c) = vb;
  h_size : sv_width (c_svg c) = wd /\ sv_height (c_svg c) = ht;
  h_titles : sv_titles (c_svg c) = w_titles E w;
  h_descs : sv_descs (c_svg c) = w_descs E w;
  h_inT : c_inTitle c = false;
  h_inD : c_inDesc c = false;
  h_pc : quiet (c_pc c);
  h_masks : masks_agree (w_masks E w) (sv_masks (c_svg c));
  h_figs : figs_agree mk (w_figs E w) c;
  h_inDefs : c_inDefs c = d;
  h_cur : d = false -> c_curDef c = [];
  h_defs : defs_agree (w_defs E w) (flushed c) }.
Definition holds d mk w c : Prop := most d mk w c /\ c_inGrad c = false /\ sees c (w_grads E w).

Lemma most_quiet d mk w c s p : most d mk w c -> quiet p -> most d mk w (c_set_stack s (c_set_pc p c)).
Proof. intros [] Q. constructor; auto. Qed.
Lemma holds_quiet d mk w c s p : holds d mk w c -> quiet p -> holds d mk w (c_set_stack s (c_set_pc p c)).
Proof. intros (H & Hg & Hs) Q. split; [apply most_quiet; assumption|]. split; [exact Hg|exact Hs]. Qed.
Lemma quiet_points p ps : quiet p -> quiet (set_points ps p).
Proof. intros (A & B & Cc & Cd). repeat split; assumption. Qed.
Lemma stack_pc (c : cursor) : c_set_stack (c_stack c) (c_set_pc (c_pc c) c) = c.
Proof. destruct c; reflexivity. Qed.
Lemma holds_stack d mk w c s : holds d mk w c -> holds d mk w (c_set_stack s c).
Proof.
  intros H. replace (c_set_stack s c) with (c_set_stack s (c_set_pc (c_pc c) c)) by (destruct c; reflexivity).
  apply holds_quiet; [exact H|apply H].
Qed.

(** the style of an element *)
Lemma push_ok grads par attrs st (c : cursor) rest : styled E vb grads par attrs st ->
  sv_viewBox (c_svg c) = vb -> sees c grads -> c_stack c = par :: rest ->
  exists ps, pushStyle attrs c = (c_set_stack (st :: par :: rest) (c_set_pc (set_points ps (c_pc c)) c), Ret tt).
Proof. intros (ds & Ha & Hd) Hv Hs Hst. exact (pushStyle_decls Hnames vb grads par attrs ds st c rest Ha Hd Hv Hs Hst). Qed.
Lemma push_holds d mk w par attrs st (c : cursor) rest : styled E vb (w_grads E w) par attrs st -> holds d mk w c -> c_stack c = par :: rest ->
  exists c1, pushStyle attrs c = (c1, Ret tt) /\ holds d mk w c1 /\ c_stack c1 = st :: par :: rest.
Proof.
  intros Hst (H & Hg & Hs) Hc. destruct (push_ok _ _ _ _ c rest Hst (h_vb _ _ _ _ H) Hs Hc) as (ps & Hp).
  eexists. split; [exact Hp|]. split; [|reflexivity]. apply holds_quiet; [exact (conj H (conj Hg Hs))|]. apply quiet_points, H.
Qed.
(** the drawing function of a start element *)
Lemma start_step name attrs (c c1 c2 : cursor) df : pushStyle attrs c = (c1, Ret tt) ->
  c_inDefs c1 && negb (String.eqb name "radialGradient" || String.eqb name "linearGradient" || c_inGrad c1) = false ->
  drawFuncs (S fuel) name = Some df -> df attrs c1 = (c2, Ret tt) ->
  stepToken (S fuel) (TStart name attrs) c = bind collectPath (fun _ => ret tt) c2.
Proof.
  intros Hp Hd Hf Hr. cbn [stepToken]. rewrite (bind_step _ _ _ _ _ Hp). unfold readStartElement.
  erewrite bind_step by (unfold gets; reflexivity). cbv beta zeta. rewrite Hd, Hf.
  erewrite bind_step by (unfold attempt; rewrite Hr; reflexivity). reflexivity.
Qed.
Lemma collect_nothing (c : cursor) : pc_path (c_pc c) = [] -> bind collectPath (fun _ => ret tt) c = (c, Ret tt).
Proof. intros H. unfold collectPath, gets, bind. rewrite H. reflexivity. Qed.
Lemma start_holds d mk w name attrs df par st (c c2 : cursor) rest : styled E vb (w_grads E w) par attrs st -> holds d mk w c -> c_stack c = par :: rest ->
  d = false ->
  drawFuncs (S fuel) name = Some df ->
  exists c1, holds d mk w c1 /\ c_stack c1 = st :: par :: rest /\
  (forall c2, df attrs c1 = (c2, Ret tt) -> pc_path (c_pc c2) = [] -> stepToken (S fuel) (TStart name attrs) c = (c2, Ret tt)).
Proof.
  intros Hst H Hc Hd Hdf. destruct (push_holds _ _ _ _ _ _ _ _ Hst H Hc) as (c1 & Hp & H1 & S1). exists c1. split; [exact H1|]. split; [exact S1|].
  intros c3 Hr Hpa. rewrite (start_step name attrs c c1 c3 df Hp); auto.
  - apply collect_nothing, Hpa.
  - rewrite (h_inDefs _ _ _ _ (proj1 H1)), Hd. reflexivity.
Qed.
(** end elements *)
Definition runs (ts : list token) (c c' : cursor) : Prop := mapM (stepToken (S fuel)) ts c = (c', Ret tt).
Lemma runs_nil c : runs [] c c. Proof. reflexivity. Qed.
Lemma runs_app a b c c1 c2 : runs a c c1 -> runs b c1 c2 -> runs (a ++ b) c c2.
Proof. unfold runs. intros H1 H2. rewrite mapM_app. rewrite (bind_step _ _ _ _ _ H1). exact H2. Qed.
Lemma runs_one t c c' : stepToken (S fuel) t c = (c', Ret tt) -> runs [t] c c'.
Proof. unfold runs. intros H. cbn [mapM]. rewrite (bind_step _ _ _ _ _ H). reflexivity. Qed.
Lemma runs_elem name attrs kids c c1 c2 c3 : stepToken (S fuel) (TStart name attrs) c = (c1, Ret tt) ->
  runs (flat_map tokens kids) c1 c2 -> stepToken (S fuel) (TEnd name) c2 = (c3, Ret tt) -> runs (tokens (Elem name attrs kids)) c c3.
Proof.
  intros H1 H2 H3. cbn [tokens]. change (TStart name attrs :: flat_map tokens kids ++ [TEnd name]) with ([TStart name attrs] ++ flat_map tokens kids ++ [TEnd name]).
  eapply runs_app; [apply runs_one, H1|]. eapply runs_app; [exact H2|]. apply runs_one, H3.
Qed.
Lemma end_step name (c : cursor) st rest : c_stack c = st :: rest -> stepToken (S fuel) (TEnd name) c = endRest name (c_set_stack rest c).
Proof. intros H. cbn [stepToken]. rewrite endElement_rest. erewrite bind_step by (unfold popStyle; rewrite H; reflexivity). reflexivity. Qed.
Definition closing : list string := ["g"; "mask"; "title"; "desc"; "defs"; "radialGradient"; "linearGradient"]%string.
Lemma endRest_other name (c : cursor) : ~ List.In name closing -> endRest name c = (c, Ret tt).
Proof.
  intros H. unfold endRest.
  repeat match goal with |- context [String.eqb name ?n] => 
    let N := fresh in destruct (String.eqb name n) eqn:N; [apply String.eqb_eq in N; subst name; exfalso; apply H; cbn; tauto|] end.
  reflexivity.
Qed.
Lemma end_plain name d mk w (c : cursor) st rest : ~ List.In name closing \/ (name = "g"%string /\ d = false) -> holds d mk w c -> c_stack c = st :: rest ->
  exists c', stepToken (S fuel) (TEnd name) c = (c', Ret tt) /\ holds d mk w c' /\ c_stack c' = rest.
Proof.
  intros Hn H Hst. rewrite (end_step name c st rest Hst). exists (c_set_stack rest c). split; [|split; [apply holds_stack, H|reflexivity]].
  destruct Hn as [Hn|[-> Hd]]; [apply endRest_other, Hn|].
  unfold endRest. cbn [String.eqb Ascii.eqb Bool.eqb]. erewrite bind_step by (unfold gets; reflexivity).
  change (c_inDefs (c_set_stack rest c)) with (c_inDefs c). rewrite (h_inDefs _ _ _ _ (proj1 H)), Hd. reflexivity.
Qed.

(** text *)
Lemma text_ignored kids t : text_of kids = Some t -> forall c, c_inTitle c = false -> c_inDesc c = false -> runs (flat_map tokens kids) c c.
Proof.
  intros Ht c H1 H2. revert t Ht. induction kids as [|k kids IH]; intros t Ht; [reflexivity|].
  destruct k as [?|s|]; cbn [text_of] in Ht; [discriminate| |].
  - destruct (text_of kids) as [t'|]; [|discriminate]. cbn [flat_map tokens].
    eapply runs_app; [|exact (IH _ eq_refl)]. apply runs_one. cbn [stepToken]. unfold charData, gets, bind. rewrite H1, H2. reflexivity.
  - cbn [flat_map tokens]. eapply runs_app; [|exact (IH _ Ht)]. apply runs_one. reflexivity.
Qed.
Lemma appendLast_app l x s : appendLast (l ++ [x]) s = Ret (l ++ [(x ++ s)%string]).
Proof. unfold appendLast. rewrite rev_app_distr. cbn [rev List.app]. rewrite rev_involutive. reflexivity. Qed.
Definition set_titles ts (c : cursor) := c_set_svg (sv_set_titles ts (c_svg c)) c.
Definition set_descs ts (c : cursor) := c_set_svg (sv_set_descs ts (c_svg c)) c.
Lemma title_text kids t : text_of kids = Some t -> forall c l x, c_inTitle c = true -> c_inDesc c = false -> 
  runs (flat_map tokens kids) (set_titles (l ++ [x]) c) (set_titles (l ++ [(x ++ t)%string]) c).
Proof.
  intros Ht c l x H1 H2. revert t Ht x. induction kids as [|k kids IH]; intros t Ht x.
  { injection Ht as <-. rewrite sapp_nil_r. reflexivity. }
  destruct k as [?|s|]; cbn [text_of] in Ht; [discriminate| |].
  - destruct (text_of kids) as [t'|]; [|discriminate]. injection Ht as <-. cbn [flat_map tokens]. rewrite <- sapp_assoc.
    eapply runs_app; [|exact (IH _ eq_refl _)]. apply runs_one. cbn [stepToken]. unfold charData.
    erewrite bind_step by (unfold gets; reflexivity). cbn [set_titles c_inTitle c_inDesc c_set_svg c_svg sv_titles sv_set_titles]. rewrite H1, H2.
    erewrite bind_step by (erewrite bind_step by (unfold lift; rewrite appendLast_app; reflexivity); unfold onSvg, modify; reflexivity). reflexivity.
  - cbn [flat_map tokens]. eapply runs_app; [|exact (IH _ Ht _)]. apply runs_one. reflexivity.
Qed.
Lemma desc_text kids t : text_of kids = Some t -> forall c l x, c_inTitle c = false -> c_inDesc c = true -> 
  runs (flat_map tokens kids) (set_descs (l ++ [x]) c) (set_descs (l ++ [(x ++ t)%string]) c).
Proof.
  intros Ht c l x H1 H2. revert t Ht x. induction kids as [|k kids IH]; intros t Ht x.
  { injection Ht as <-. rewrite sapp_nil_r. reflexivity. }
  destruct k as [?|s|]; cbn [text_of] in Ht; [discriminate| |].
  - destruct (text_of kids) as [t'|]; [|discriminate]. injection Ht as <-. cbn [flat_map tokens]. rewrite <- sapp_assoc.
    eapply runs_app; [|exact (IH _ eq_refl _)]. apply runs_one. cbn [stepToken]. unfold charData.
    erewrite bind_step by (unfold gets; reflexivity). cbn [set_descs c_inTitle c_inDesc c_set_svg c_svg sv_descs sv_set_descs]. rewrite H1, H2.
    erewrite bind_step by reflexivity.
    erewrite bind_step by (unfold lift; rewrite appendLast_app; reflexivity). reflexivity.
  - cbn [flat_map tokens]. eapply runs_app; [|exact (IH _ Ht _)]. apply runs_one. reflexivity.
Qed.

(** title and desc *)
Lemma title_run mk par attrs kids st t w (c : cursor) rest : styled E vb (w_grads E w) par attrs st -> text_of kids = Some t ->
  c_stack c = par :: rest -> holds false mk w c ->
  exists c', runs (tokens (Elem "title" attrs kids)) c c' /\ c_stack c' = par :: rest /\ holds false mk (with_titles E (w_titles E w ++ [t]) w) c'.
Proof.
  intros Hst Ht Hc H. destruct (start_holds false mk w "title" attrs titleF par st c c rest Hst H Hc eq_refl eq_refl) as (c1 & H1 & S1 & R).
  set (c2 := set_titles (w_titles E w ++ [EmptyString]) (c_set_inTitle true c1)).
  destruct H1 as (M1 & G1 & Se1).
  exists (c_set_inTitle false (c_set_stack (par :: rest) (set_titles (w_titles E w ++ [t]) (c_set_inTitle true c1)))).
  split; [|split; [reflexivity|]].
  - eapply runs_elem with (c1 := c2).
    + apply R; [|apply M1]. unfold titleF. erewrite bind_step by (unfold modify; reflexivity). unfold onSvg, modify.
      unfold c2, set_titles. cbn [c_svg c_set_inTitle]. rewrite (h_titles _ _ _ _ M1). reflexivity.
    + apply (title_text _ _ Ht (c_set_inTitle true c1) (w_titles E w) EmptyString eq_refl). apply M1.
    + rewrite (end_step "title" _ st (par :: rest)); [reflexivity|exact S1].
  - split; [|split; [exact G1|exact Se1]]. destruct M1. constructor; auto.
Qed.
Lemma desc_run mk par attrs kids st t w (c : cursor) rest : styled E vb (w_grads E w) par attrs st -> text_of kids = Some t ->
  c_stack c = par :: rest -> holds false mk w c ->
  exists c', runs (tokens (Elem "desc" attrs kids)) c c' /\ c_stack c' = par :: rest /\ holds false mk (with_descs E (w_descs E w ++ [t]) w) c'.
Proof.
  intros Hst Ht Hc H. destruct (start_holds false mk w "desc" attrs descF par st c c rest Hst H Hc eq_refl eq_refl) as (c1 & H1 & S1 & R).
  set (c2 := set_descs (w_descs E w ++ [EmptyString]) (c_set_inDesc true c1)).
  destruct H1 as (M1 & G1 & Se1).
  exists (c_set_inDesc false (c_set_stack (par :: rest) (set_descs (w_descs E w ++ [t]) (c_set_inDesc true c1)))).
  split; [|split; [reflexivity|]].
  - eapply runs_elem with (c1 := c2).
    + apply R; [|apply M1]. unfold descF. erewrite bind_step by (unfold modify; reflexivity). unfold onSvg, modify.
      unfold c2, set_descs. cbn [c_svg c_set_inDesc]. rewrite (h_descs _ _ _ _ M1). reflexivity.
    + refine (desc_text _ _ Ht (c_set_inDesc true c1) (w_descs E w) EmptyString _ eq_refl). apply M1.
    + rewrite (end_step "desc" _ st (par :: rest)); [reflexivity|exact S1].
  - split; [|split; [exact G1|exact Se1]]. destruct M1. constructor; auto.
Qed.

(** a drawn figure *)
Lemma collect_figure mk (f : figure) w w1 (c : cursor) p rest : holds false mk w c -> c_stack c = fg_style E f :: rest ->
  forall pc', frame (c_pc c) pc' -> pc_path pc' = p -> outlines E SH vb [] (fg_shapes E f) p ->
  w1 = match p with [] => w | _ => with_figs E (w_figs E w ++ [f]) w end ->
  exists c', bind collectPath (fun _ => ret tt) (c_set_pc pc' c) = (c', Ret tt) /\ c_stack c' = c_stack c /\ holds false mk w1 c'.
Proof.
  intros H Hst pc' (F1 & F2 & F3) Hp Hsh ->.
  assert (Q : forall pc2, pc_curX pc2 = pc_curX pc' -> pc_curY pc2 = pc_curY pc' -> pc_mode pc2 = pc_mode pc' -> pc_path pc2 = [] -> quiet pc2).
  { intros pc2 E1 E2 E3 E4. destruct H as [[] _]. destruct h_pc0 as (Q1 & Q2 & QM & Q3). repeat split; [congruence|exact E4|congruence|exact Q3]. }
  destruct p as [|o p].
  - rewrite collect_nothing by exact Hp. eexists. split; [reflexivity|]. split; [reflexivity|].
    replace (c_set_pc pc' c) with (c_set_stack (c_stack c) (c_set_pc pc' c)) by (destruct c; reflexivity).
    apply holds_quiet; [exact H|]. apply Q; auto.
  - destruct H as (M & G & Se).
    assert (Dr : drawn E SH vb f (mkSvgPath (o :: p) (fg_style E f))) by (split; [reflexivity|split; [discriminate|exact Hsh]]).
    unfold collectPath. unfold bind at 1. erewrite bind_step by (unfold gets; reflexivity). cbn [c_pc c_set_pc]. rewrite Hp.
    pose proof (h_figs _ _ _ _ M) as Hf. unfold figs_agree in Hf. change (c_inMask (c_set_pc pc' c)) with (c_inMask c). change (c_mask (c_set_pc pc' c)) with (c_mask c).
    destruct mk as [[[id b] outer]|].
    + destruct Hf as (I1 & (m & I2 & I3) & I4). rewrite I1, I2.
      erewrite bind_step. 2:{ erewrite bind_step by (unfold topStyle; cbn [c_stack c_set_pc]; rewrite Hst; reflexivity). unfold modify. reflexivity. }
      cbv beta iota. unfold onCPath, liftP. eexists. split; [reflexivity|]. split; [reflexivity|].
      split; [|split; [exact G|exact Se]]. destruct M. constructor; auto.
      cbn. split; [exact I1|]. split; [|exact I4]. eexists. split; [reflexivity|]. destruct I3 as (J1 & J2 & J3). split; [exact J1|]. split; [exact J2|].
        cbn [mk_paths snd]. apply Forall2_app; [exact J3|]. constructor; [exact Dr|constructor].
    + destruct Hf as (I1 & I2 & I3). rewrite I1.
      erewrite bind_step. 2:{ erewrite bind_step by (unfold topStyle; cbn [c_stack c_set_pc]; rewrite Hst; reflexivity). unfold onSvg, modify. reflexivity. }
      cbv beta iota. unfold onCPath, liftP. eexists. split; [reflexivity|]. split; [reflexivity|].
      split; [|split; [exact G|exact Se]]. destruct M. constructor; auto.
      cbn. split; [exact I1|]. split; [exact I2|]. apply Forall2_app; [exact I3|]. constructor; [exact Dr|constructor].
Qed.
Lemma figure_unique (f : figure) w w1 (p p0 : path) : outlines E SH vb [] (fg_shapes E f) p -> (p = [] <-> p0 = []) ->
  w1 = match p0 with [] => w | _ => with_figs E (w_figs E w ++ [f]) w end -> w1 = match p with [] => w | _ => with_figs E (w_figs E w ++ [f]) w end.
Proof. intros _ H ->. destruct p, p0; try reflexivity; destruct H as [H1 H2]; [discriminate (H1 eq_refl)|discriminate (H2 eq_refl)]. Qed.
(** a shape element, with any path before it *)
Lemma shape_at f off name attrs q0 (c : cursor) : m0 <= f -> SH vb off name attrs q0 -> pc_mode (c_pc c) = md -> sv_viewBox (c_svg c) = vb -> offset c = off ->
  exists df pc' q, drawFuncs f name = Some df /\ df attrs c = (c_set_pc pc' c, Ret tt) /\ frame (c_pc c) pc'
    /\ pc_path pc' = joined name attrs (pc_path (c_pc c)) q /\ SH vb off name attrs q /\ (q = [] <-> q0 = []).
Proof.
  intros Hf Hsh HM Hvb Hoff. set (c0 := c_set_pc (set_path [] (c_pc c)) c).
  destruct (HSH f vb off name attrs q0 c0 Hf Hsh) as (Hn & K). destruct (K HM Hvb Hoff eq_refl) as (df & pc' & Hdf & D1 & D3 & D4 & Hsh' & Hiff).
  destruct (al_shape (pc_path (c_pc c)) true f name df attrs Hn (fun _ => eq_refl) Hdf c c0) as (K1 & K2).
  { unfold alike. cbn. rewrite app_nil_r. auto 10. }
  rewrite D1 in K1, K2. specialize (K2 eq_refl). pose proof (st_shape f name df attrs Hn Hdf c) as (S1 & S2).
  destruct (df attrs c) as [c' o] eqn:Hc. cbn [fst snd] in *. subst o.
  exists df, (c_pc c'), (pc_path pc'). split; [exact Hdf|]. split; [rewrite Hc, <- S1; reflexivity|]. auto.
Qed.
Lemma joined_empty name attrs (p p0 q q0 : path) : (p = [] <-> p0 = []) -> (q = [] <-> q0 = []) -> (joined name attrs p q = [] <-> joined name attrs p0 q0 = []).
Proof.
  intros Hp Hq. unfold joined. destruct (_ && _); [exact Hq|]. destruct p, p0, q, q0; cbn; try tauto; intuition discriminate.
Qed.
Lemma joined_nil name attrs (q : path) : joined name attrs [] q = q.
Proof. unfold joined. destruct (_ && _); reflexivity. Qed.
Lemma one_outline off name attrs p : outlines E SH vb [] [(off, name, attrs)] p <-> SH vb off name attrs p.
Proof.
  split.
  - intros H. inversion H as [|? ? ? ? ? ? ? H1 H2]; subst. inversion H2; subst. rewrite joined_nil in *. exact H1.
  - intros H. econstructor; [exact H|]. rewrite joined_nil. constructor.
Qed.
Lemma shape_start mk par name attrs st w w1 (c : cursor) rest : styled E vb (w_grads E w) par attrs st -> 
  draws_figure E SH vb (mkFig E [(origin E, name, attrs)] st) w w1 -> c_stack c = par :: rest -> holds false mk w c ->
  exists c1, stepToken (S fuel) (TStart name attrs) c = (c1, Ret tt) /\ c_stack c1 = st :: par :: rest /\ holds false mk w1 c1.
Proof.
  intros Hst (p0 & Hsh & Hw) Hc H. cbn [fg_shapes] in Hsh. apply one_outline in Hsh.
  destruct (push_holds _ _ _ _ _ _ _ _ Hst H Hc) as (c1 & Hp & H1 & S1).
  pose proof (h_pc _ _ _ _ (proj1 H1)) as (Q1 & Q2 & QM & Q3).
  destruct (shape_at (S fuel) (origin E) name attrs p0 c1 ltac:(lia) Hsh QM (h_vb _ _ _ _ (proj1 H1)) Q1) as (df & pc' & q & Hdf & D1 & D5 & D2 & Hsh' & Hiff).
  rewrite Q2, joined_nil in D2. apply one_outline in Hsh'.
  destruct (collect_figure mk (mkFig E [(origin E, name, attrs)] st) w w1 c1 q (par :: rest) H1 S1 pc' D5 D2 Hsh') as (c2 & C1 & C2 & C3).
  { eapply figure_unique; eassumption. }
  exists c2. split; [|split; [congruence|exact C3]]. rewrite <- C1. eapply start_step; [exact Hp| |exact Hdf|exact D1].
  rewrite (h_inDefs _ _ _ _ (proj1 H1)). reflexivity.
Qed.
Lemma shape_name off name attrs p : SH vb off name attrs p -> List.In name shape_names.
Proof. intros H. refine (proj1 (HSH fuel vb off name attrs p (cursor0 StrictErrorMode) _ H)). lia. Qed.
Lemma shape_not_closing name : List.In name shape_names -> ~ List.In name closing.
Proof. intros H1 H2. cbn in H1, H2. repeat (destruct H1 as [<-|H1]; [repeat (destruct H2 as [H2|H2]; [discriminate|]); destruct H2|]). destruct H1. Qed.

(** use *)
Definition unbare (d : string * list attr) : definition := mkDef EmptyString (fst d) (snd d).
Lemma bind_ext {A B} (m : @C E A) (k1 k2 : A -> @C E B) (c : cursor) : (forall a c, k1 a c = k2 a c) -> bind m k1 c = bind m k2 c.
Proof. intros H. unfold bind. destruct (m c) as [c' [a|e| |]]; auto. Qed.
Lemma useLoop_bare draw ds : forall c : cursor, useLoop draw ds c = useLoop draw (map unbare (map bare ds)) c.
Proof.
  induction ds as [|d ds IH]; intros c; [reflexivity|]. cbn [map useLoop]. cbn [bare unbare d_tag d_attrs fst snd].
  destruct (String.eqb (d_tag d) "endg"); [apply bind_ext; auto|]. apply bind_ext. intros _ c1. destruct (draw (d_tag d)) as [df|]; [|reflexivity].
  apply bind_ext. intros _ c2. apply bind_ext. auto.
Qed.
Lemma use_slice id : slice ("#" ++ id) 1 (String.length ("#" ++ id)) = Ret id.
Proof.
  unfold slice. cbn [String.append String.length]. rewrite (proj2 (Nat.leb_le _ _)), (proj2 (Nat.leb_le _ _)) by lia. cbn [andb substring Nat.sub].
  rewrite Nat.sub_0_r. f_equal. clear. induction id as [|a id IH]; [reflexivity|]. cbn. rewrite IH. reflexivity.
Qed.
Lemma loop_elem draw name attrs df r (c c1 c2 c3 : cursor) : String.eqb name "endg" = false -> String.eqb name "g" = false ->
  pushStyle attrs c = (c1, Ret tt) -> draw name = Some df -> df attrs c1 = (c2, Ret tt) -> popStyle c2 = (c3, Ret tt) ->
  useLoop draw (unbare (name, attrs) :: r) c = useLoop draw r c3.
Proof.
  intros H1 H2 H3 H4 H5 H6. cbn [useLoop unbare d_tag d_attrs fst snd]. rewrite H1, (bind_step _ _ _ _ _ H3), H4, (bind_step _ _ _ _ _ H5), H2. cbn [negb].
  rewrite (bind_step _ _ _ _ _ H6). reflexivity.
Qed.
Lemma loop_group draw attrs df r (c c1 : cursor) : pushStyle attrs c = (c1, Ret tt) -> draw "g"%string = Some df -> df attrs c1 = (c1, Ret tt) ->
  useLoop draw (unbare ("g"%string, attrs) :: r) c = useLoop draw r c1.
Proof.
  intros H3 H4 H5. cbn [useLoop unbare d_tag d_attrs fst snd String.eqb Ascii.eqb Bool.eqb]. rewrite (bind_step _ _ _ _ _ H3), H4, (bind_step _ _ _ _ _ H5). reflexivity.
Qed.
Lemma loop_end draw r (c : cursor) st rest : c_stack c = st :: rest -> useLoop draw (unbare ("endg"%string, []) :: r) c = useLoop draw r (c_set_stack rest c).
Proof. intros H. cbn [useLoop unbare d_tag d_attrs fst snd String.eqb Ascii.eqb Bool.eqb]. erewrite bind_step by (unfold popStyle; rewrite H; reflexivity). reflexivity. Qed.
Definition runs_trace (f : nat) grads (defs : string -> option (list dtree)) off par ts ps off' : Prop := forall (c : cursor) rest p0 p0' more,
  pc_mode (c_pc c) = md -> sv_viewBox (c_svg c) = vb -> sees c grads -> defs_agree defs (sv_defs (c_svg c)) -> c_stack c = par :: rest -> offset c = off ->
  (pc_path (c_pc c) = [] <-> p0 = []) -> outlines E SH vb p0 ps p0' ->
  exists pc', useLoop (drawFuncs f) (map unbare (flat_map flat ts ++ more)) c = useLoop (drawFuncs f) (map unbare more) (c_set_pc pc' c)
    /\ (pc_curX pc', pc_curY pc') = off' /\ pc_mode pc' = md
    /\ outlines E SH vb (pc_path (c_pc c)) ps (pc_path pc') /\ (pc_path pc' = [] <-> p0' = []).
(** a use of a definition whose shapes can be drawn *)
Lemma use_definition f grads defs attrs st id x y ts ps off' (c1 : cursor) rest p0 p0' :
  runs_trace f grads defs (x, y) st ts ps off' ->
  pc_mode (c_pc c1) = md -> sv_viewBox (c_svg c1) = vb -> sees c1 grads -> defs_agree defs (sv_defs (c_svg c1)) -> c_stack c1 = st :: rest ->
  text_attr "href" "" attrs = ("#" ++ id)%string ->
  length_attr vb OfWidth "x" attrs x -> length_attr vb OfHeight "y" attrs y ->
  defs id = Some ts -> (pc_path (c_pc c1) = [] <-> p0 = []) -> outlines E SH vb p0 ps p0' ->
  exists pc2, useF (S f) attrs c1 = (c_set_pc pc2 c1, Ret tt) /\ (pc_curX pc2, pc_curY pc2) = origin E /\ pc_mode pc2 = md
    /\ outlines E SH vb (pc_path (c_pc c1)) ps (pc_path pc2) /\ (pc_path pc2 = [] <-> p0' = []).
Proof.
  intros HT QM Hvb Hsee Hda S1 Hh Hx Hy Hd Hp Ho.
  set (c2 := c_set_pc (set_cur x y (c_pc c1)) c1).
  destruct (Hda id ts Hd) as (l & Hg & Hl).
  destruct (HT c2 rest p0 p0' [] QM Hvb Hsee Hda S1 eq_refl Hp Ho) as (pc' & R & O1 & M1 & O2 & P1).
  exists (set_cur (fnum E 0) (fnum E 0) pc'). split; [|split; [reflexivity|split; [exact M1|split; [exact O2|exact P1]]]].
  unfold useF; fold (useF (E := E)).
  erewrite bind_step by (apply use_fold; rewrite Hvb; [exact Hx|exact Hy]). cbv beta iota.
  erewrite bind_step by (unfold modify; reflexivity). fold c2. unfold deferred. rewrite Hh.
  change (String.eqb ("#" ++ id) "") with false. replace (hasPrefix ("#" ++ id) "#") with true by (destruct id; reflexivity). cbv beta iota. cbn [negb].
  erewrite bind_step by (unfold lift; rewrite use_slice; reflexivity).
  erewrite bind_step by (unfold gets; reflexivity).
  change (sv_defs (c_svg c2)) with (sv_defs (c_svg c1)). rewrite Hg.
  change (fun tag : string => if String.eqb tag "use" then Some (useF f) else drawFunc f tag) with (drawFuncs (E := E) f).
  rewrite useLoop_bare, Hl. rewrite app_nil_r in R. rewrite R. reflexivity.
Qed.
Lemma outlines_app ps : forall qs p p', outlines E SH vb p (ps ++ qs) p' -> exists p1, outlines E SH vb p ps p1 /\ outlines E SH vb p1 qs p'.
Proof.
  induction ps as [|[[off name] attrs] ps IH]; intros qs p p' H; [exists p; split; [constructor|exact H]|].
  inversion H as [|? ? ? ? q ? ? H1 H2]; subst. destruct (IH _ _ _ H2) as (p1 & K1 & K2). exists p1. split; [econstructor; eassumption|exact K2].
Qed.
Lemma app_outlines ps : forall qs p p1 p', outlines E SH vb p ps p1 -> outlines E SH vb p1 qs p' -> outlines E SH vb p (ps ++ qs) p'.
Proof.
  induction ps as [|[[off name] attrs] ps IH]; intros qs p p1 p' H K; inversion H as [|? ? ? ? q ? ? H1 H2]; subst; [exact K|].
  cbn [app]. econstructor; eauto.
Qed.
Lemma trace_run grads defs k off par ts ps off' : traces E vb grads defs k off par ts ps off' -> forall f, m0 + k <= f -> runs_trace f grads defs off par ts ps off'.
Proof.
  induction 1 as [k off par|k off par name attrs st ts ps off' Hst Hn _ IH|k off par attrs kids st ps off1 ts qs off' Hst _ IH1 _ IH2
    |k off par attrs st id x y us ps off1 ts qs off' Hst Hh Hx Hy Hd _ IH1 _ IH2]; intros f Hf c rest p0 p0' more QM Hvb Hsee Hda S1 Ho Hp Hol.
  - inversion Hol; subst. exists (c_pc c). split; [cbn; f_equal; destruct c; reflexivity|]. repeat split; auto; try apply Hp. constructor.
  - inversion Hol as [|? ? ? ? q0 ? ? H1 H2]; subst.
    destruct (push_ok grads par attrs st c rest Hst Hvb Hsee S1) as (ps1 & Hpu). set (c1 := c_set_stack _ _) in Hpu.
    destruct (shape_at f (offset c) name attrs q0 c1 ltac:(lia) H1 QM Hvb eq_refl) as (df & pc' & q & Hdf & D1 & (D3 & D4 & D5) & D2 & Hsh' & Hiff).
    change (pc_path (c_pc c1)) with (pc_path (c_pc c)) in D2.
    set (c2 := c_set_pc pc' c).
    destruct (IH f Hf c2 rest (joined name attrs p0 q0) p0' more) as (pc2 & R & O1 & M1 & O2 & P1); auto.
    { cbn. rewrite D5. exact QM. }
    { unfold offset. cbn. rewrite D3, D4. reflexivity. }
    { cbn. rewrite D2. apply joined_empty; assumption. }
    exists pc2. split; [|split; [exact O1|split; [exact M1|split; [|exact P1]]]].
    + cbn [flat_map flat app map].
      assert (Hne : String.eqb name "endg" = false /\ String.eqb name "g" = false).
      { cbn in Hn. repeat (destruct Hn as [<-|Hn]; [auto|]). destruct Hn. }
      erewrite loop_elem; [|apply Hne|apply Hne|exact Hpu|exact Hdf|exact D1|reflexivity]. refine (eq_trans _ R).
      f_equal. unfold c1, c2. clear - S1. destruct c; cbn in *. subst. reflexivity.
    + econstructor; [exact Hsh'|]. rewrite <- D2. exact O2.
  - destruct (outlines_app _ _ _ _ Hol) as (p1 & Hol1 & Hol2).
    destruct (push_ok grads par attrs st c rest Hst Hvb Hsee S1) as (ps1 & Hpu). set (c1 := c_set_stack _ _) in Hpu.
    destruct (IH1 f Hf c1 (par :: rest) p0 p1 (("endg"%string, []) :: flat_map flat ts ++ more)) as (pc1 & R1 & O1 & M1 & O2 & P1); auto.
    set (c2 := c_set_pc pc1 c).
    destruct (IH2 f Hf c2 rest p1 p0' more) as (pc2 & R2 & O3 & M2 & O4 & P2); auto.
    exists pc2. split; [|split; [exact O3|split; [exact M2|split; [eapply app_outlines; eassumption|exact P2]]]].
    cbn [flat_map flat app map]. erewrite loop_group; [|exact Hpu|reflexivity|reflexivity]. rewrite <- !app_assoc. cbn [app].
    rewrite R1. cbn [map]. erewrite loop_end by reflexivity. refine (eq_trans _ R2).
    f_equal. unfold c1, c2. clear - S1. destruct c; cbn in *. subst. reflexivity.
  - destruct (outlines_app _ _ _ _ Hol) as (p1 & Hol1 & Hol2). destruct f as [|f]; [lia|].
    destruct (push_ok grads par attrs st c rest Hst Hvb Hsee S1) as (ps1 & Hpu). set (c1 := c_set_stack _ _) in Hpu.
    destruct (use_definition f grads defs attrs st id x y us ps off1 c1 (par :: rest) p0 p1) as (pc1 & R1 & O1 & M1 & O2 & P1); auto.
    { apply IH1. lia. }
    set (c2 := c_set_pc pc1 c).
    destruct (IH2 (S f) Hf c2 rest p1 p0' more) as (pc2 & R2 & O3 & M2 & O4 & P2); auto.
    exists pc2. split; [|split; [exact O3|split; [exact M2|split; [eapply app_outlines; eassumption|exact P2]]]].
    cbn [flat_map flat app map]. erewrite loop_elem; [|reflexivity|reflexivity|exact Hpu|reflexivity|exact R1|reflexivity]. refine (eq_trans _ R2).
    f_equal. unfold c1, c2. clear - S1. destruct c; cbn in *. subst. reflexivity.
Qed.
Lemma use_start mk par attrs st id x y ts ps off w w1 (c : cursor) rest :
  styled E vb (w_grads E w) par attrs st ->
  text_attr "href" "" attrs = ("#" ++ id)%string ->
  length_attr vb OfWidth "x" attrs x -> length_attr vb OfHeight "y" attrs y ->
  w_defs E w id = Some ts -> traces E vb (w_grads E w) (w_defs E w) dep (x, y) st ts ps off ->
  draws_figure E SH vb (mkFig E ps st) w w1 -> c_stack c = par :: rest -> holds false mk w c ->
  exists c1, stepToken (S fuel) (TStart "use" attrs) c = (c1, Ret tt) /\ c_stack c1 = st :: par :: rest /\ holds false mk w1 c1.
Proof.
  intros Hst Hh Hx Hy Hdef Hds (p0 & Hsh & Hw) Hc H. cbn [fg_shapes] in Hsh.
  destruct (push_holds _ _ _ _ _ _ _ _ Hst H Hc) as (c1 & Hp & H1 & S1).
  pose proof (proj1 H1) as M1. pose proof (h_pc _ _ _ _ M1) as (Q1 & Q2 & QM & Q3).
  assert (Hg : defs_agree (w_defs E w) (sv_defs (c_svg c1))).
  { pose proof (h_defs _ _ _ _ M1) as Hm. unfold flushed in Hm. rewrite (h_cur _ _ _ _ M1 eq_refl) in Hm. exact Hm. }
  assert (Hpp : pc_path (c_pc c1) = [] <-> @nil op = []) by (rewrite Q2; tauto).
  destruct (use_definition fuel (w_grads E w) (w_defs E w) attrs st id x y ts ps off c1 (par :: rest) [] p0 (trace_run _ _ _ _ _ _ _ _ Hds fuel Hfuel)
    QM (h_vb _ _ _ _ M1) (proj2 (proj2 H1)) Hg S1 Hh Hx Hy Hdef Hpp Hsh) as (pc2 & U1 & U5 & U6 & U3 & U4).
  rewrite Q2 in U3.
  destruct (collect_figure mk (mkFig E ps st) w w1 c1 (pc_path pc2) (par :: rest) H1 S1 pc2) as (c4 & C1 & C2 & C3).
  { unfold origin in Q1, U5. split; [congruence|]. split; congruence. }
  { reflexivity. } { exact U3. } { eapply figure_unique; eassumption. }
  exists c4. split; [|split; [congruence|exact C3]]. rewrite <- C1. eapply start_step; [exact Hp| |reflexivity|exact U1].
  rewrite (h_inDefs _ _ _ _ M1). reflexivity.
Qed.

(** masks *)
Lemma set_mask_agree ms m id (a : mask_box * list figure) mk : masks_agree ms m -> mask_drawn E SH vb id a mk -> masks_agree (set ms id a) (mput id mk m).
Proof.
  intros H Ha i. specialize (H i). rewrite mget_put. unfold set. destruct (String.eqb i id) eqn:Hi; [|exact H].
  apply String.eqb_eq in Hi. subst i. exact Ha.
Qed.
Lemma mask_start par attrs st id b w (c : cursor) rest : styled E vb (w_grads E w) par attrs st -> mask_head E vb attrs id b ->
  c_stack c = par :: rest -> holds false None w c ->
  exists c1, stepToken (S fuel) (TStart "mask" attrs) c = (c1, Ret tt) /\ c_stack c1 = st :: par :: rest
    /\ holds false (Some (id, b, w_figs E w)) (with_figs E [] w) c1.
Proof.
  intros Hst Hm Hc H. destruct (start_holds false None w "mask" attrs maskF par st c c rest Hst H Hc eq_refl eq_refl) as (c1 & H1 & S1 & R).
  destruct b as (((x & y) & bw) & bh), Hm as (Hi & Hx & Hy & Hw & Hh). pose proof (proj1 H1) as M1.
  eexists. split; [apply R|].
  - unfold maskF. erewrite bind_step by (apply mask_fold; try rewrite (h_vb _ _ _ _ M1); eassumption). cbv beta iota. unfold modify. reflexivity.
  - apply (h_pc _ _ _ _ M1).
  - split; [exact S1|]. destruct H1 as (_ & G1 & Se1). split; [|split; [exact G1|exact Se1]].
    destruct M1. constructor; auto. destruct h_figs0 as (I1 & I2 & I3). split; [reflexivity|]. split; [|exact I3].
    eexists. split; [reflexivity|]. split; [reflexivity|]. split; [reflexivity|]. constructor.
Qed.
Lemma mask_end st id b outer w (c : cursor) rest : c_stack c = st :: rest -> holds false (Some (id, b, outer)) w c ->
  exists c', stepToken (S fuel) (TEnd "mask") c = (c', Ret tt) /\ c_stack c' = rest
    /\ holds false None (with_masks E (set (w_masks E w) id (b, w_figs E w)) (with_figs E outer w)) c'.
Proof.
  intros Hst H. rewrite (end_step "mask" c st rest Hst). unfold endRest. cbn [String.eqb Ascii.eqb Bool.eqb].
  destruct H as (M & G & Se). destruct (h_figs _ _ _ _ M) as (I1 & (m & I2 & I3) & I4).
  erewrite bind_step by (unfold gets; reflexivity). change (c_mask (c_set_stack rest c)) with (c_mask c). rewrite I2.
  erewrite bind_step by (erewrite bind_step by (unfold onSvg, modify; reflexivity); unfold modify; reflexivity).
  eexists. split; [unfold modify; reflexivity|]. split; [reflexivity|]. split; [|split; [exact G|exact Se]].
  destruct M. constructor; auto.
  - cbn. pose proof I3 as (-> & _). apply set_mask_agree; assumption.
  - split; [reflexivity|]. split; [reflexivity|]. exact I4.
Qed.

(** gradients *)
(** what [declare] means for the pointers *)
Definition points (id : option string) (p : nat) (h0 : list (gradient E)) (grads : string -> option (gradient E)) (gr : smap nat) : Prop :=
  forall i, match mget i gr with
            | Some q => (id = Some i /\ q = p) \/ (id <> Some i /\ exists g, nth_error h0 q = Some g /\ grads i = Some g)
            | None => grads i = None /\ id <> Some i
            end.
Lemma points_sees (c : cursor) id h0 grads gr g ps : points id (length h0) h0 grads gr -> sees (gc c h0 g gr ps) (declare E id g grads).
Proof.
  intros H i. cbn [gc c_svg c_set_pc c_set_gheap c_set_svg sv_grads sv_set_grads c_gheap]. specialize (H i). destruct (mget i gr) as [q|].
  - destruct H as [[-> ->]|[Hn (g' & Hq & Hg)]].
    + exists g. split; [apply nth_last|]. cbn. unfold set. rewrite String.eqb_refl. reflexivity.
    + exists g'. split; [rewrite nth_error_app1; [exact Hq|]; apply nth_error_Some; congruence|].
      destruct id as [j|]; cbn; [|exact Hg]. unfold set. destruct (String.eqb i j) eqn:Hj; [apply String.eqb_eq in Hj; congruence|exact Hg].
  - destruct H as [Hg Hn]. destruct id as [j|]; cbn; [|exact Hg]. unfold set. destruct (String.eqb i j) eqn:Hj; [apply String.eqb_eq in Hj; congruence|exact Hg].
Qed.
Lemma sees_points (c : cursor) id grads attrs : sees c grads -> attr_id attrs id ->
  points id (length (c_gheap c)) (c_gheap c) grads (reg (length (c_gheap c)) attrs (sv_grads (c_svg c))).
Proof.
  intros H Hi i. rewrite (reg_id _ _ _ _ Hi). specialize (H i). destruct id as [j|].
  - rewrite mget_put. destruct (String.eqb i j) eqn:Hj.
    + apply String.eqb_eq in Hj. subst j. left. auto.
    + apply String.eqb_neq in Hj. destruct (mget i (sv_grads (c_svg c))) as [q|]; [right|]; split; congruence || auto.
  - destruct (mget i (sv_grads (c_svg c))) as [q|]; [right|]; split; congruence || auto.
Qed.
(** what the gradient elements need of the state *)
Definition calm (c : cursor) : Prop := sv_viewBox (c_svg c) = vb /\ c_inTitle c = false /\ c_inDesc c = false /\ pc_path (c_pc c) = [].
Lemma most_calm d mk w c : most d mk w c -> calm c.
Proof. intros M. repeat split; apply M. Qed.
(** the state with [st] pushed and a new gradient at address [p] *)
Definition at_grad (ps : list F) (st : style E) (p : nat) (c : cursor) : cursor :=
  c_set_grad (Some p) (c_set_inGrad true (c_set_stack (st :: c_stack c) (c_set_pc (set_points ps (c_pc c)) c))).
Lemma grad_start grads par name attrs st id g (c : cursor) rest : styled E vb grads par attrs st ->
  gradient_of E vb name (part_of Transform st) attrs [] g -> attr_id attrs id -> c_stack c = par :: rest -> calm c -> sees c grads ->
  exists ps0 gr ps, stepToken (S fuel) (TStart name attrs) c = (gc (at_grad ps0 st (length (c_gheap c)) c) (c_gheap c) g gr ps, Ret tt)
    /\ points id (length (c_gheap c)) (c_gheap c) grads gr.
Proof.
  intros Hst (u & sp & m & dir & Hu & Hs & Hm & Hd & ->) Hi Hc (Hvb & HT & HD & HP) Hsee.
  destruct (push_ok _ _ _ _ c rest Hst Hvb Hsee Hc) as (ps0 & Hp). exists ps0.
  rewrite <- Hc in Hp. set (c1 := c_set_stack _ _) in Hp.
  set (h0 := c_gheap c). set (g0 := mkGrad None [] vb identity PadSpread ObjectBoundingBox).
  set (c2 := c_set_grad (Some (length h0)) (c_set_inGrad true c1)).
  assert (Hnew' : newGrad (c_set_inGrad true c1) = (gc c2 h0 g0 (sv_grads (c_svg c1)) (pc_points (c_pc c1)), Ret tt)).
  { unfold newGrad, modify. f_equal. unfold gc, c2, g0, h0, c1. rewrite <- Hvb. clear. destruct c as [[] [] ? ? ? ? ? ? ? ? ? ?]. reflexivity. }
  assert (S1 : c_stack c1 = st :: c_stack c) by reflexivity.
  assert (Hbox : gradBox (recast u sp m g0) = grad_box E vb u) by (destruct u; reflexivity).
  destruct Hd as [[-> (x1 & y1 & x2 & y2 & L1 & L2 & L3 & L4 & ->)]|[-> (cx & cy & fx & fy & r & fr & L1 & L2 & L3 & L4 & L5 & L6 & ->)]].
  - destruct (lin_fold c2 h0 st (c_stack c) attrs eq_refl S1 "0%" "0%" "100%" "0" g0 (sv_grads (c_svg c1)) (pc_points (c_pc c1)) u sp m Hu Hs Hm) as (ps & Hf).
    exists (reg (length h0) attrs (sv_grads (c_svg c1))), ps. split; [|apply (sees_points c1); assumption].
    erewrite start_step; [apply collect_nothing, HP|exact Hp|destruct (c_inDefs c1); reflexivity|reflexivity|].
    unfold linearGradientF. erewrite bind_step by (unfold modify; reflexivity). rewrite (bind_step _ _ _ _ _ Hnew').
    rewrite (bind_step _ _ _ _ _ Hf). cbv beta iota. 
    erewrite bind_step by (unfold theGrad, idx; cbn [gc c_grad c_set_pc c_set_gheap c_set_svg c_gheap c2 c_set_grad]; rewrite nth_last; reflexivity).
    cbv zeta. rewrite Hbox.
    apply (resolveUnit_length _ OfWidth) in L1, L3. apply (resolveUnit_length _ OfHeight) in L2, L4. cbn [ref_of] in *.
    erewrite bind_step by (unfold lift; rewrite L1; reflexivity). erewrite bind_step by (unfold lift; rewrite L2; reflexivity).
    erewrite bind_step by (unfold lift; rewrite L3; reflexivity). erewrite bind_step by (unfold lift; rewrite L4; reflexivity).
    rewrite onGrad_gc by reflexivity. reflexivity.
  - destruct (rad_fold c2 h0 st (c_stack c) attrs eq_refl S1 "50%" "50%" None None "50%" "50%" g0 (sv_grads (c_svg c1)) (pc_points (c_pc c1)) u sp m Hu Hs Hm) as (ps & Hf).
    exists (reg (length h0) attrs (sv_grads (c_svg c1))), ps. split; [|apply (sees_points c1); assumption].
    erewrite start_step; [apply collect_nothing, HP|exact Hp|destruct (c_inDefs c1); reflexivity|reflexivity|].
    unfold radialGradientF. erewrite bind_step by (unfold modify; reflexivity). rewrite (bind_step _ _ _ _ _ Hnew').
    rewrite (bind_step _ _ _ _ _ Hf). cbv beta iota. rewrite !otext_text. cbv beta iota zeta.
    erewrite bind_step by (unfold theGrad, idx; cbn [gc c_grad c_set_pc c_set_gheap c_set_svg c_gheap c2 c_set_grad]; rewrite nth_last; reflexivity).
    cbv zeta. rewrite Hbox.
    apply (resolveUnit_length _ OfWidth) in L1, L3. apply (resolveUnit_length _ OfHeight) in L2, L4. apply (resolveUnit_length _ OfDiagonal) in L5, L6. cbn [ref_of] in *.
    erewrite bind_step by (unfold lift; rewrite L1; reflexivity). erewrite bind_step by (unfold lift; rewrite L2; reflexivity).
    erewrite bind_step by (unfold lift; rewrite L3; reflexivity). erewrite bind_step by (unfold lift; rewrite L4; reflexivity).
    erewrite bind_step by (unfold lift; rewrite L5; reflexivity). erewrite bind_step by (unfold lift; rewrite L6; reflexivity).
    rewrite onGrad_gc by reflexivity. reflexivity.
Qed.
Lemma grad_kids_run grads id st kids g g' : grad_kids E vb id grads st kids g g' -> forall (c : cursor) h0 gr ps rest,
  c_stack c = st :: rest -> c_grad c = Some (length h0) -> c_inGrad c = true -> points id (length h0) h0 grads gr -> calm c ->
  exists ps', runs (flat_map tokens kids) (gc c h0 g gr ps) (gc c h0 g' gr ps').
Proof.
  induction 1 as [g|s r g g' _ IH|r g g' _ IH|attrs kids t st' s r g g' Hst Ht Hs _ IH]; intros c h0 gr ps rest Hc Hg Hi Hp M.
  - exists ps. apply runs_nil.
  - destruct (IH c h0 gr ps rest Hc Hg Hi Hp M) as (ps' & H). exists ps'. cbn [flat_map tokens]. eapply runs_app; [|exact H].
    destruct M as (_ & HT & HD & _).
    apply runs_one. cbn [stepToken]. unfold charData, gets, bind. cbn [gc c_inTitle c_inDesc c_set_pc c_set_gheap c_set_svg].
    rewrite HT, HD. reflexivity.
  - destruct (IH c h0 gr ps rest Hc Hg Hi Hp M) as (ps' & H). exists ps'. cbn [flat_map tokens]. eapply runs_app; [|exact H].
    apply runs_one. reflexivity.
  - pose proof M as (Hvb & HT & HD & HP). destruct (push_ok _ _ _ _ (gc c h0 g gr ps) rest Hst) as (ps1 & H1).
    { exact Hvb. } { apply points_sees, Hp. } { exact Hc. }
    set (c1 := c_set_stack (st' :: st :: rest) c).
    change (c_set_stack (st' :: st :: rest) (c_set_pc (set_points ps1 (c_pc (gc c h0 g gr ps))) (gc c h0 g gr ps))) with (gc c1 h0 g gr ps1) in H1.
    destruct (IH c h0 gr ps1 rest Hc Hg Hi Hp M) as (ps' & H). exists ps'. cbn [flat_map]. eapply runs_app; [|exact H].
    eapply runs_elem with (c1 := gc c1 h0 (add_stop E s g) gr ps1).
    + rewrite (start_step "stop" attrs _ (gc c1 h0 g gr ps1) (gc c1 h0 (add_stop E s g) gr ps1) stopF H1); [|change (c_inGrad (gc c1 h0 g gr ps1)) with (c_inGrad c); rewrite Hi; apply Bool.andb_false_r|reflexivity|apply stopF_ok; assumption].
      apply collect_nothing. exact HP.
    + apply (text_ignored _ _ Ht); [exact HT|exact HD].
    + rewrite (end_step "stop" _ st' (st :: rest)) by reflexivity. rewrite endRest_other by (cbn; intros Hx; repeat (destruct Hx as [Hx|Hx]; [discriminate|]); destruct Hx).
      f_equal. rewrite <- Hc. unfold gc, c1. clear. destruct c; reflexivity.
Qed.
(** a whole gradient element, from any calm state *)
Lemma grad_element grads par name attrs kids st id g g' (c : cursor) rest : styled E vb grads par attrs st ->
  gradient_of E vb name (part_of Transform st) attrs [] g -> attr_id attrs id -> grad_kids E vb id grads st kids g g' ->
  c_stack c = par :: rest -> calm c -> sees c grads ->
  exists c', runs (tokens (Elem name attrs kids)) c c' /\ sees c' (declare E id g' grads)
    /\ exists p h gr ps, c' = c_set_inGrad false (c_set_grad p (c_set_gheap h (c_set_svg (sv_set_grads gr (c_svg c)) (c_set_pc (set_points ps (c_pc c)) c)))).
Proof.
  intros Hst Hg Hi Hk Hc Hca Hsee.
  destruct (grad_start grads par name attrs st id g c rest Hst Hg Hi Hc Hca Hsee) as (ps0 & gr & ps & H1 & P1).
  set (c1 := at_grad ps0 st (length (c_gheap c)) c) in H1.
  destruct (grad_kids_run grads id st kids g g' Hk c1 (c_gheap c) gr ps (c_stack c) eq_refl eq_refl eq_refl P1 Hca) as (ps' & H2).
  exists (c_set_inGrad false (c_set_stack (c_stack c) (gc c1 (c_gheap c) g' gr ps'))). split; [|split].
  - eapply runs_elem; [exact H1|exact H2|]. rewrite (end_step name (gc c1 (c_gheap c) g' gr ps') st (c_stack c) eq_refl).
    destruct Hg as (u & sp & m & dir & _ & _ & _ & [[-> _]|[-> _]] & _); reflexivity.
  - exact (points_sees c1 id (c_gheap c) grads gr g' ps' P1).
  - exists (Some (length (c_gheap c))), (c_gheap c ++ [g']), gr, ps'. unfold gc, c1, at_grad. clear. destruct c as [[] [] ? ? ? ? ? ? ? ? ? ?]. reflexivity.
Qed.
Lemma grad_run d mk par n w w' : grad_elem E vb par n w w' -> forall (c : cursor) rest, c_stack c = par :: rest -> holds d mk w c ->
  exists c', runs (tokens n) c c' /\ c_stack c' = par :: rest /\ holds d mk w' c' /\ c_curDef c' = c_curDef c.
Proof.
  intros [name attrs kids st id g g' w0 Hst Hg Hi Hk] c rest Hc (M & G & Se).
  destruct (grad_element _ _ _ _ _ _ _ _ _ c rest Hst Hg Hi Hk Hc (most_calm _ _ _ _ M) Se) as (c' & R & Se' & p & h & gr & ps & ->).
  eexists. split; [exact R|]. split; [exact Hc|]. split; [|reflexivity]. split; [|split; [reflexivity|exact Se']].
  destruct M. constructor; auto.
Qed.

(** definitions *)
Lemma flush_ok (c : cursor) : exists c', flushDefs c = (c', Ret tt) /\ c_curDef c' = [] /\ sv_defs (c_svg c') = flushed c
  /\ c' = c_set_curDef [] (c_set_svg (sv_set_defs (flushed c) (c_svg c)) c).
Proof.
  unfold flushDefs, modify, flushed. destruct (c_curDef c) as [|d r] eqn:H.
  - exists c. repeat split; auto. destruct c as [? [] ? ? ? ? ? ? ? ? ? ?]; cbn in *. subst. reflexivity.
  - eexists. split; [reflexivity|]. repeat split.
Qed.
(** the state after [ds] are added to the current definition *)
Definition added (ds : list definition) (ps : list F) (c : cursor) : cursor := c_set_curDef (c_curDef c ++ ds) (c_set_pc (set_points ps (c_pc c)) c).
(** the state in which the definition with that id is being made *)
Definition started (id : string) (c : cursor) : cursor :=
  if String.eqb id "" then c else c_set_curDef [] (c_set_svg (sv_set_defs (flushed c) (c_svg c)) c).
Definition defining (grads : string -> option (gradient E)) (c : cursor) : Prop :=
  sv_viewBox (c_svg c) = vb /\ sees c grads /\ c_inDefs c = true /\ c_inGrad c = false /\ c_inTitle c = false /\ c_inDesc c = false.
Lemma add_start grads par name attrs st (c : cursor) rest : styled E vb grads par attrs st -> defining grads c -> c_stack c = par :: rest ->
  name <> "radialGradient"%string -> name <> "linearGradient"%string ->
  exists ps, stepToken (S fuel) (TStart name attrs) c
    = (c_set_stack (st :: par :: rest) (added [mkDef (text_attr "id" "" attrs) name attrs] ps (started (text_attr "id" "" attrs) c)), Ret tt).
Proof.
  intros Hst (Hvb & Hsee & HD & HG & _) Hc Hn1 Hn2. destruct (push_ok grads par attrs st c rest Hst Hvb Hsee Hc) as (ps & Hp). exists ps.
  cbn [stepToken]. rewrite (bind_step _ _ _ _ _ Hp). set (c1 := c_set_stack _ _). unfold readStartElement. erewrite bind_step by (unfold gets; reflexivity). cbv beta zeta.
  change (c_inDefs c1) with (c_inDefs c). change (c_inGrad c1) with (c_inGrad c). apply String.eqb_neq in Hn1, Hn2. rewrite HD, HG, Hn1, Hn2. cbn [orb negb andb].
  rewrite attrID_text. unfold started. destruct (String.eqb (text_attr "id" "" attrs) "") eqn:Hid; cbn [negb].
  - erewrite bind_step by reflexivity. unfold addDef, modify, added, c1. destruct c; reflexivity.
  - destruct (flush_ok c1) as (c3 & F1 & F2 & F3 & F4). rewrite (bind_step _ _ _ _ _ F1). unfold addDef, modify. rewrite F2, F4.
    unfold added, c1, flushed. destruct c; reflexivity.
Qed.
Lemma add_defining grads ds ps id s (c : cursor) : defining grads c -> defining grads (c_set_stack s (added ds ps (started id c))).
Proof. intros (H1 & H2 & H3 & H4 & H5 & H6). unfold started. destruct (String.eqb id ""); (split; [exact H1|split; [exact H2|split; [exact H3|split; [exact H4|split; [exact H5|exact H6]]]]]). Qed.
Scheme def_node_mut := Minimality for def_node Sort Prop with def_inner_mut := Minimality for def_inner Sort Prop.
Combined Scheme def_both from def_node_mut, def_inner_mut.
Definition same_head (id : string) (ds : list definition) : Prop := match ds with d :: _ => d_id d = id | [] => False end.
Lemma def_run grads :
  (forall par n t, def_node E vb grads par n t -> forall (c : cursor) rest, defining grads c -> c_stack c = par :: rest ->
     exists ds ps, runs (tokens n) c (added ds ps (started (id_of n) c)) /\ map bare ds = flat t /\ same_head (id_of n) ds)
  /\ (forall par ns ts, def_inner E vb grads par ns ts -> forall (c : cursor) rest, defining grads c -> c_stack c = par :: rest ->
     exists ds ps, runs (flat_map tokens ns) c (added ds ps c) /\ map bare ds = flat_map flat ts).
Proof.
  cut (forall par, (forall n t, def_node E vb grads par n t -> forall (c : cursor) rest, defining grads c -> c_stack c = par :: rest ->
     exists ds ps, runs (tokens n) c (added ds ps (started (id_of n) c)) /\ map bare ds = flat t /\ same_head (id_of n) ds)
  /\ (forall ns ts, def_inner E vb grads par ns ts -> forall (c : cursor) rest, defining grads c -> c_stack c = par :: rest ->
     exists ds ps, runs (flat_map tokens ns) c (added ds ps c) /\ map bare ds = flat_map flat ts)).
  { intros G. split; intros par; apply G. }
  apply (def_both E vb grads
    (fun par n t => forall (c : cursor) rest, defining grads c -> c_stack c = par :: rest ->
       exists ds ps, runs (tokens n) c (added ds ps (started (id_of n) c)) /\ map bare ds = flat t /\ same_head (id_of n) ds)
    (fun par ns ts => forall (c : cursor) rest, defining grads c -> c_stack c = par :: rest ->
       exists ds ps, runs (flat_map tokens ns) c (added ds ps c) /\ map bare ds = flat_map flat ts)).
  - intros par name attrs kids t st Hst Hn Ht c rest Hd Hc.
    destruct (add_start grads par name attrs st c rest Hst Hd Hc) as (ps & R).
    { intros ->. cbn in Hn. repeat (destruct Hn as [Hn|Hn]; [discriminate|]). destruct Hn. }
    { intros ->. cbn in Hn. repeat (destruct Hn as [Hn|Hn]; [discriminate|]). destruct Hn. }
    exists [mkDef (text_attr "id" "" attrs) name attrs], ps. split; [|split; reflexivity]. cbn [id_of].
    pose proof (add_defining grads [mkDef (text_attr "id" "" attrs) name attrs] ps (text_attr "id" "" attrs) (st :: par :: rest) c Hd) as (_ & _ & _ & _ & HT & HDe).
    eapply runs_elem; [exact R|apply (text_ignored _ _ Ht); assumption|].
    rewrite (end_step name _ st (par :: rest)) by reflexivity. rewrite endRest_other.
    + f_equal. unfold started. destruct (String.eqb _ ""); unfold added; clear - Hc; destruct c; cbn in *; subst; reflexivity.
    + destruct Hn as [<-|Hn]; [|apply shape_not_closing, Hn]. cbn. intros Hx. repeat (destruct Hx as [Hx|Hx]; [discriminate|]). destruct Hx.
  - intros par attrs kids st ts Hst _ IH c rest Hd Hc.
    destruct (add_start grads par "g" attrs st c rest Hst Hd Hc) as (ps & R); [discriminate|discriminate|].
    pose proof (add_defining grads [mkDef (text_attr "id" "" attrs) "g" attrs] ps (text_attr "id" "" attrs) (st :: par :: rest) c Hd) as Hd1.
    set (c1 := c_set_stack _ _) in R, Hd1. destruct (IH c1 (par :: rest) Hd1 eq_refl) as (ds & ps2 & R2 & Hds).
    exists (mkDef (text_attr "id" "" attrs) "g" attrs :: ds ++ [mkDef "" "endg" []]), ps2. split; [|split; [|reflexivity]].
    + cbn [id_of]. eapply runs_elem; [exact R|exact R2|].
      rewrite (end_step "g" _ st (par :: rest)) by reflexivity. unfold endRest. cbn [String.eqb Ascii.eqb Bool.eqb]. erewrite bind_step by (unfold gets; reflexivity).
      assert (HD : c_inDefs (c_set_stack (par :: rest) (added ds ps2 c1)) = true) by apply Hd1. rewrite HD. unfold addDef, modify. f_equal.
      unfold c1, started. destruct (String.eqb _ ""); unfold added; clear - Hc; destruct c; cbn in *; subst; rewrite <- ?app_assoc; reflexivity.
    + cbn [map]. rewrite map_app, Hds. reflexivity.
  - intros par c rest Hd Hc. exists [], (pc_points (c_pc c)). split; [|reflexivity].
    replace (added [] (pc_points (c_pc c)) c) with c; [apply runs_nil|]. unfold added. rewrite app_nil_r. destruct c as [[] ? ? ? ? ? ? ? ? ? ? ?]; reflexivity.
  - intros par s r ts _ IH c rest Hd Hc. destruct (IH c rest Hd Hc) as (ds & ps & R & Hds). exists ds, ps. split; [|exact Hds].
    cbn [flat_map tokens]. eapply runs_app; [|exact R]. apply runs_one. cbn [stepToken]. unfold charData, gets, bind.
    destruct Hd as (_ & _ & _ & _ & -> & ->). reflexivity.
  - intros par r ts _ IH c rest Hd Hc. destruct (IH c rest Hd Hc) as (ds & ps & R & Hds). exists ds, ps. split; [|exact Hds].
    cbn [flat_map tokens]. eapply runs_app; [|exact R]. apply runs_one. reflexivity.
  - intros par n t r ts Hid _ IH1 _ IH2 c rest Hd Hc. destruct (IH1 c rest Hd Hc) as (ds1 & ps1 & R1 & Hds1 & _). rewrite Hid in R1. cbn [started String.eqb] in R1.
    destruct (IH2 (added ds1 ps1 c) rest) as (ds2 & ps2 & R2 & Hds2).
    { destruct Hd as (D1 & D2 & D3 & D4 & D5 & D6). split; [exact D1|split; [exact D2|split; [exact D3|split; [exact D4|split; [exact D5|exact D6]]]]]. }
    { exact Hc. }
    exists (ds1 ++ ds2), ps2. split.
    + cbn [flat_map]. eapply runs_app; [exact R1|]. replace (added (ds1 ++ ds2) ps2 c) with (added ds2 ps2 (added ds1 ps1 c)); [exact R2|].
      unfold added. cbn. rewrite <- app_assoc. destruct c; reflexivity.
    + rewrite map_app, Hds1, Hds2. reflexivity.
Qed.
(** the definition being made *)
Definition making (cur : option string) (c : cursor) : Prop :=
  match cur with None => c_curDef c = [] | Some id => same_head id (c_curDef c) end.
Lemma holds_defining mk w (c : cursor) : holds true mk w c -> defining (w_grads E w) c.
Proof. intros (M & G & Se). split; [apply M|]. split; [exact Se|]. split; [apply M|]. split; [exact G|]. split; apply M. Qed.
Lemma set_def_agree ds m id ts l : defs_agree ds m -> map bare l = flat_map flat ts -> defs_agree (set ds id ts) (mput id l m).
Proof.
  intros H Hl i us Hd. rewrite mget_put. unfold set in Hd. destruct (String.eqb i id) eqn:Hi; [|exact (H _ _ Hd)].
  injection Hd as <-. eauto.
Qed.
Lemma flushed_head (c : cursor) id : same_head id (c_curDef c) -> flushed c = mput id (c_curDef c) (sv_defs (c_svg c)).
Proof. unfold flushed, same_head. destruct (c_curDef c) as [|d l]; [tauto|]. intros <-. reflexivity. Qed.
Lemma defs_run_kids mk par cur kids w w' : def_kids E vb par cur kids w w' -> forall (c : cursor) rest, c_stack c = par :: rest -> making cur c -> holds true mk w c ->
  exists c', runs (flat_map tokens kids) c c' /\ c_stack c' = par :: rest /\ holds true mk w' c'.
Proof.
  induction 1 as [cur w|cur s r w w' _ IH|cur r w w' _ IH|cur n r w w1 w' Hg _ IH|cur n t r w w' Hn Hid _ IH|id n t ts r w w' Hn Hid Hts _ IH]; intros c rest Hc Hm H.
  - exists c. split; [apply runs_nil|]. auto.
  - destruct (IH c rest Hc Hm H) as (c' & H1 & H2). exists c'. split; [|exact H2]. cbn [flat_map tokens]. eapply runs_app; [|exact H1].
    apply runs_one. cbn [stepToken]. unfold charData, gets, bind. rewrite (h_inT _ _ _ _ (proj1 H)), (h_inD _ _ _ _ (proj1 H)). reflexivity.
  - destruct (IH c rest Hc Hm H) as (c' & H1 & H2). exists c'. split; [|exact H2]. cbn [flat_map tokens]. eapply runs_app; [|exact H1]. apply runs_one. reflexivity.
  - destruct (grad_run _ _ _ _ _ _ Hg c rest Hc H) as (c1 & R1 & S1 & H1 & Hcur). destruct (IH c1 rest S1) as (c' & R2 & H2); [unfold making; rewrite Hcur; exact Hm|exact H1|].
    exists c'. split; [|exact H2]. cbn [flat_map]. eapply runs_app; eassumption.
  - destruct (proj1 (def_run (w_grads E w)) par n t Hn c rest (holds_defining _ _ _ H) Hc) as (ds & ps & R1 & Hds & Hh).
    set (c1 := added ds ps (started (id_of n) c)) in R1.
    assert (Hcd : c_curDef c1 = ds /\ sv_defs (c_svg c1) = flushed c).
    { unfold c1, started. destruct (String.eqb (id_of n) "") eqn:Hie; [|split; reflexivity].
      apply String.eqb_eq in Hie. destruct Hid as [Hid| ->]; [contradiction|]. cbn in Hm. unfold added, flushed. cbn. rewrite Hm. split; reflexivity. }
    destruct Hcd as [Hcd Hsd]. assert (Hh1 : same_head (id_of n) (c_curDef c1)) by (rewrite Hcd; exact Hh).
    destruct (IH c1 rest) as (c' & R2 & H2).
    + unfold c1, started. destruct (String.eqb (id_of n) ""); exact Hc.
    + exact Hh1.
    + pose proof (flushed_head _ _ Hh1) as Hfl. rewrite Hcd, Hsd in Hfl. clear Hh1 Hcd Hsd. destruct H as (M & G & Se).
      assert (Hde : defs_agree (set (w_defs E w) (id_of n) [t]) (flushed c1)).
      { rewrite Hfl. apply set_def_agree; [exact (h_defs _ _ _ _ M)|]. cbn. rewrite app_nil_r. exact Hds. }
      split; [|unfold c1, started; destruct (String.eqb (id_of n) ""); (split; [exact G|exact Se])].
      clear Hfl. revert Hde. unfold c1, started. destruct M.
      destruct (String.eqb (id_of n) ""); intros Hde; constructor; auto; discriminate.
    + exists c'. split; [|exact H2]. cbn [flat_map]. eapply runs_app; eassumption.
  - destruct (proj1 (def_run (w_grads E w)) par n t Hn c rest (holds_defining _ _ _ H) Hc) as (ds & ps & R1 & Hds & _). rewrite Hid in R1. cbn [started String.eqb] in R1.
    cbn [making] in Hm.
    assert (Hh1 : same_head id (c_curDef (added ds ps c))) by (unfold added; cbn; destruct (c_curDef c); [destruct Hm|exact Hm]).
    destruct (IH (added ds ps c) rest) as (c' & R2 & H2); [exact Hc|exact Hh1| |].
    + destruct H as (M & G & Se). split; [|split; [exact G|exact Se]].
      assert (Hde : defs_agree (set (w_defs E w) id (ts ++ [t])) (flushed (added ds ps c))).
      { rewrite (flushed_head _ _ Hh1). pose proof (h_defs _ _ _ _ M) as Ha. rewrite (flushed_head _ _ Hm) in Ha.
        destruct (Ha id ts Hts) as (l & Hl1 & Hl2). rewrite mget_put, String.eqb_refl in Hl1. injection Hl1 as <-.
        intros i us Hi. rewrite mget_put. unfold set in Hi. destruct (String.eqb i id) eqn:Hii.
        - injection Hi as <-. eexists. split; [reflexivity|]. unfold added. cbn. rewrite map_app, flat_map_app, Hl2, Hds. cbn. rewrite app_nil_r. reflexivity.
        - specialize (Ha i us Hi). rewrite mget_put, Hii in Ha. exact Ha. }
      destruct M. constructor; auto. discriminate.
    + exists c'. split; [|exact H2]. cbn [flat_map]. eapply runs_app; eassumption.
Qed.
Lemma defs_run mk par attrs kids st w w' (c : cursor) rest : styled E vb (w_grads E w) par attrs st -> def_kids E vb st None kids w w' ->
  c_stack c = par :: rest -> holds false mk w c ->
  exists c', runs (tokens (Elem "defs" attrs kids)) c c' /\ c_stack c' = par :: rest /\ holds false mk w' c'.
Proof.
  intros Hst Hk Hc H. destruct (start_holds false mk w "defs" attrs defsF par st c c rest Hst H Hc eq_refl eq_refl) as (c1 & H1 & S1 & R).
  assert (H2 : holds true mk w (c_set_inDefs true c1)).
  { destruct H1 as (M1 & G1 & Se1). split; [|split; [exact G1|exact Se1]]. destruct M1. constructor; auto. }
  destruct (defs_run_kids mk st None kids w w' Hk (c_set_inDefs true c1) (par :: rest) S1 (h_cur _ _ _ _ (proj1 H1) eq_refl) H2) as (c3 & R3 & S3 & H3).
  destruct H3 as (M3 & G3 & Se3). destruct (flush_ok (c_set_stack (par :: rest) c3)) as (c4 & F1 & F2 & F3 & F4).
  exists (c_set_inDefs false c4). split; [|split].
  - eapply runs_elem; [apply R; [reflexivity|exact (proj1 (proj2 (h_pc _ _ _ _ (proj1 H2))))]|exact R3|].
    rewrite (end_step "defs" _ st (par :: rest) S3). unfold endRest. cbn [String.eqb Ascii.eqb Bool.eqb]. rewrite (bind_step _ _ _ _ _ F1). reflexivity.
  - rewrite F4. reflexivity.
  - rewrite F4. split; [|split; [exact G3|exact Se3]]. destruct M3. constructor; auto.
Qed.

(** all elements *)
Lemma group_start mk par name attrs st w (c : cursor) rest : name = "g"%string \/ (lenient = true /\ ~ List.In name known_names) ->
  styled E vb (w_grads E w) par attrs st -> c_stack c = par :: rest -> holds false mk w c ->
  exists c1, stepToken (S fuel) (TStart name attrs) c = (c1, Ret tt) /\ c_stack c1 = st :: par :: rest /\ holds false mk w c1.
Proof.
  intros [->|[Hl Hn]] Hst Hc H.
  - destruct (start_holds false mk w "g" attrs gF par st c c rest Hst H Hc eq_refl eq_refl) as (c1 & H1 & S1 & R).
    exists c1. split; [|auto]. apply R; [reflexivity|apply (proj1 H1)].
  - destruct (push_holds _ _ _ _ _ _ _ _ Hst H Hc) as (c1 & Hp & H1 & S1).
    assert (Hdf : drawFuncs (E := E) (S fuel) name = None).
    { unfold drawFuncs, drawFunc.
      repeat match goal with |- context [String.eqb name ?n] => 
        let N := fresh in destruct (String.eqb name n) eqn:N; [apply String.eqb_eq in N; subst name; exfalso; apply Hn; cbn; tauto|] end. reflexivity. }
    pose proof (h_pc _ _ _ _ (proj1 H1)) as (Q1 & Q2 & QM & Q3). specialize (Q3 Hl).
    cbn [stepToken]. rewrite (bind_step _ _ _ _ _ Hp). unfold readStartElement. erewrite bind_step by (unfold gets; reflexivity). cbv beta zeta.
    rewrite (h_inDefs _ _ _ _ (proj1 H1)). cbn [andb]. rewrite Hdf. unfold handleError. erewrite bind_step by (unfold gets; reflexivity).
    destruct (pc_mode (c_pc c1)) eqn:Hm.
    + exists c1. split; [reflexivity|]. auto.
    + eexists. split; [reflexivity|]. split; [exact S1|].
      match goal with |- holds _ _ _ (c_set_pc ?p _) => replace (c_set_pc p c1) with (c_set_stack (c_stack c1) (c_set_pc p c1)) by (destruct c1; reflexivity) end.
      apply holds_quiet; [exact H1|]. repeat split; auto. cbn. congruence.
    + congruence.
Qed.

Scheme sem_mut := Minimality for sem Sort Prop with sems_mut := Minimality for sems Sort Prop.
Combined Scheme sem_both from sem_mut, sems_mut.
Definition node_ok (par : style E) (n : node) (w w' : world) : Prop := forall mk (c : cursor) rest,
  (mk <> None -> mentions "mask" n = false) -> c_stack c = par :: rest -> holds false mk w c ->
  exists c', runs (tokens n) c c' /\ c_stack c' = par :: rest /\ holds false mk w' c'.
Definition nodes_ok (par : style E) (ns : list node) (w w' : world) : Prop := forall mk (c : cursor) rest,
  (mk <> None -> existsb (mentions "mask") ns = false) -> c_stack c = par :: rest -> holds false mk w c ->
  exists c', runs (flat_map tokens ns) c c' /\ c_stack c' = par :: rest /\ holds false mk w' c'.
Lemma tree_run : (forall par n w w', sem E SH vb lenient dep par n w w' -> node_ok par n w w')
              /\ (forall par ns w w', sems E SH vb lenient dep par ns w w' -> nodes_ok par ns w w').
Proof.
  cut (forall par, (forall n w w', sem E SH vb lenient dep par n w w' -> node_ok par n w w') /\ (forall ns w w', sems E SH vb lenient dep par ns w w' -> nodes_ok par ns w w')).
  { intros G. split; intros par; apply G. }
  apply (sem_both E SH vb lenient dep node_ok nodes_ok); unfold node_ok, nodes_ok.
  - intros par s w mk c rest _ Hc H. exists c. split; [|auto]. apply runs_one. cbn [stepToken]. unfold charData, gets, bind.
    rewrite (h_inT _ _ _ _ (proj1 H)), (h_inD _ _ _ _ (proj1 H)). reflexivity.
  - intros par w mk c rest _ Hc H. exists c. split; [|auto]. apply runs_one. reflexivity.
  - intros par name attrs kids st w w1 w2 Hst Hf _ IH mk c rest Hm Hc H.
    destruct (shape_start mk par name attrs st w w1 c rest Hst Hf Hc H) as (c1 & R1 & S1 & H1).
    destruct (IH mk c1 (par :: rest)) as (c2 & R2 & S2 & H2); auto.
    { intros Hk. apply Hm in Hk. cbn [mentions] in Hk. apply Bool.orb_false_iff in Hk. tauto. }
    destruct (end_plain name false mk w2 c2 st (par :: rest)) as (c3 & R3 & H3 & S3); auto.
    { left. destruct Hf as (p & Hsh & _). apply one_outline in Hsh. apply shape_not_closing. exact (shape_name _ _ _ _ Hsh). }
    exists c3. split; [eapply runs_elem; eassumption|auto].
  - intros par name attrs kids st w w' Hn Hst _ IH mk c rest Hm Hc H.
    destruct (group_start mk par name attrs st w c rest Hn Hst Hc H) as (c1 & R1 & S1 & H1).
    destruct (IH mk c1 (par :: rest)) as (c2 & R2 & S2 & H2); auto.
    { intros Hk. apply Hm in Hk. cbn [mentions] in Hk. apply Bool.orb_false_iff in Hk. tauto. }
    destruct (end_plain name false mk w' c2 st (par :: rest)) as (c3 & R3 & H3 & S3); auto.
    { destruct Hn as [->|[_ Hn]]; [right; auto|left]. intros Hx. apply Hn. cbn in Hx |- *. tauto. }
    exists c3. split; [eapply runs_elem; eassumption|auto].
  - intros par attrs kids st t w Hst Ht mk c rest _ Hc H. eapply title_run; eassumption.
  - intros par attrs kids st t w Hst Ht mk c rest _ Hc H. eapply desc_run; eassumption.
  - intros par n w w' Hg mk c rest _ Hc H. destruct (grad_run _ _ _ _ _ _ Hg c rest Hc H) as (c' & ? & ? & ? & _). eauto.
  - intros par attrs kids st w w' Hst Hk mk c rest _ Hc H. eapply defs_run; eassumption.
  - intros par attrs kids st id b w w' Hst Hh Hk _ IH mk c rest Hm Hc H.
    destruct mk as [mk|]; [assert (Hx : mentions "mask" (Elem "mask" attrs kids) = false) by (apply Hm; discriminate); discriminate Hx|].
    destruct (mask_start par attrs st id b w c rest Hst Hh Hc H) as (c1 & R1 & S1 & H1).
    destruct (IH _ c1 (par :: rest) (fun _ => Hk) S1 H1) as (c2 & R2 & S2 & H2).
    destruct (mask_end st id b (w_figs E w) w' c2 (par :: rest) S2 H2) as (c3 & R3 & S3 & H3).
    exists c3. split; [eapply runs_elem; eassumption|]. split; [exact S3|exact H3].
  - intros par attrs kids st id x y ts ps off w w1 w2 Hst Hh Hx Hy Hd Hds Hf _ IH mk c rest Hm Hc H.
    destruct (use_start mk par attrs st id x y ts ps off w w1 c rest Hst Hh Hx Hy Hd Hds Hf Hc H) as (c1 & R1 & S1 & H1).
    destruct (IH mk c1 (par :: rest)) as (c2 & R2 & S2 & H2); auto.
    destruct (end_plain "use" false mk w2 c2 st (par :: rest)) as (c3 & R3 & H3 & S3); auto.
    { left. cbn. intros Hx'. repeat (destruct Hx' as [Hx'|Hx']; [discriminate|]). destruct Hx'. }
    exists c3. split; [eapply runs_elem; eassumption|auto].
  - intros par w mk c rest _ Hc H. exists c. split; [apply runs_nil|auto].
  - intros par n r w w1 w2 _ IH1 _ IH2 mk c rest Hm Hc H.
    destruct (IH1 mk c rest) as (c1 & R1 & S1 & H1); auto.
    { intros Hk. apply Hm in Hk. cbn [existsb] in Hk. apply Bool.orb_false_iff in Hk. tauto. }
    destruct (IH2 mk c1 rest) as (c2 & R2 & S2 & H2); auto.
    { intros Hk. apply Hm in Hk. cbn [existsb] in Hk. apply Bool.orb_false_iff in Hk. tauto. }
    exists c2. split; [cbn [flat_map]; eapply runs_app; eassumption|auto].
Qed.
End PT.

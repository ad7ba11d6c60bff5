(** * ProofsWho: which element draws which path (C32) *)
From Coq Require Import Lia.
From Verif Require Export SpecWho ProofsFlags ProofsAttrs.
Local Open Scope go_scope.

Section Who.
Context {E : Env}.
Notation cursor := (cursor E).
Notation heap := (list (list string)).
Notation hp c := (sv_mheap (c_svg c)).
Notation ml st := (st_masks st).
Context (n : nat) (Hgrow : grows (E := E) n).

(** ** What an element can add to *)
Definition flags (c c' : cursor) : Prop :=
  c_inMask c' = c_inMask c /\ c_inDefs c' = c_inDefs c /\ c_inGrad c' = c_inGrad c.
Definition sa (c c' : cursor) : Prop :=
  sv_paths (c_svg c') = sv_paths (c_svg c) /\ sv_masks (c_svg c') = sv_masks (c_svg c) /\ c_mask c' = c_mask c /\ c_inMask c' = c_inMask c.
Definition sf (c c' : cursor) : Prop := sa c c' /\ c_inDefs c' = c_inDefs c /\ c_inGrad c' = c_inGrad c.
Lemma sa_refl c : sa c c. Proof. unfold sa; auto. Qed.
Lemma sa_trans a b c : sa a b -> sa b c -> sa a c. Proof. unfold sa; intuition congruence. Qed.
Lemma sf_refl c : sf c c. Proof. unfold sf, sa; auto 10. Qed.
Lemma sf_trans a b c : sf a b -> sf b c -> sf a c. Proof. unfold sf, sa; intuition congruence. Qed.
Lemma sf_pc p c : sf c (c_set_pc p c). Proof. unfold sf, sa; auto 10. Qed.
Lemma sf_heap h c : sf c (c_set_svg (sv_set_mheap h (c_svg c)) c). Proof. unfold sf, sa; auto 10. Qed.
Lemma sf_stack s c : sf c (c_set_stack s c). Proof. unfold sf, sa; auto 10. Qed.
Lemma sf_svg v w h c : sf c (c_set_svg (sv_set_viewBox v (sv_set_width w (sv_set_height h (c_svg c)))) c). Proof. unfold sf, sa; auto 10. Qed.
Lemma sf_push attrs : keeps sf (pushStyle attrs).
Proof. apply (kp_pushStyle _ sf_refl sf_trans sf_pc sf_heap). intros. apply sf_stack. Qed.

(** a position outside definitions and gradients ([d], [g]: inside them) *)
Record here (d g : bool) (c : cursor) : Prop := mkHere {
  h_defs : c_inDefs c = d; h_grad : c_inGrad c = g; h_path : pc_path (c_pc c) = [];
  h_mask : c_inMask c = match c_mask c with Some _ => true | None => false end }.
Lemma here_sf d g c c' : sf c c' -> pc_path (c_pc c') = [] -> here d g c -> here d g c'.
Proof. intros ((_ & _ & A3 & A4) & A5 & A6) Hp []. constructor; [congruence|congruence|exact Hp|]. rewrite A3, A4. assumption. Qed.

(** the masks named by the elements of a chain are those of a slice *)
Definition lists (h : heap) (ch : chain) (sl : sslice) : Prop :=
  forall idss, Forall2 (fun e ids => attrs_mask (snd e) ids) ch idss ->
    sl_len sl = length (concat idss) /\ (length (concat idss) <= n -> slice_read h sl = concat idss).
Lemma lists_hle h h' ch sl : hle n h h' -> valid h sl -> lists h ch sl -> lists h' ch sl.
Proof.
  intros Hh V H idss Hi. destruct (H idss Hi) as [H1 H2]. split; [exact H1|]. intros Hn. rewrite <- (H2 Hn). eapply read_hle; [exact Hh|exact V|lia].
Qed.
Definition carries (ch : chain) (c : cursor) : Prop :=
  exists st rest, c_stack c = st :: rest /\ valid (hp c) (ml st) /\ safe (E := E) n (ml st) /\ lists (hp c) ch (ml st).
Lemma carries_hle ch (c c' : cursor) : c_stack c' = c_stack c -> hle n (hp c) (hp c') -> carries ch c -> carries ch c'.
Proof.
  intros Hs Hh (st & rest & H1 & H2 & H3 & H4). exists st, rest. split; [congruence|]. split; [eapply valid_hle; eassumption|]. split; [exact H3|].
  eapply lists_hle; eassumption.
Qed.
Lemma read_length h sl : valid h sl -> length (slice_read h sl) = sl_len sl.
Proof. intros (H1 & H2 & H3). unfold slice_read. rewrite firstn_length. lia. Qed.
Lemma push_carries ch name attrs (c c' : cursor) : carries ch c -> pushStyle attrs c = (c', Ret tt) ->
  carries (ch ++ [(name, attrs)]) c' /\ (exists st, c_stack c' = st :: c_stack c) /\ hle n (hp c) (hp c') /\ sf c c' /\ pc_path (c_pc c') = pc_path (c_pc c).
Proof.
  intros (st & rest & H1 & H2 & H3 & H4) Hp.
  pose proof (push_ok n attrs c st rest H1 H2 H3) as (P1 & _ & P2). rewrite Hp in P1, P2. cbn [fst snd] in P1, P2.
  destruct P2 as (st1 & S1 & V1 & F1 & _).
  pose proof (sf_push attrs c) as K. pose proof (kq_pushStyle attrs c) as Q. unfold kpath in Q. rewrite Hp in K, Q. cbn [fst] in K, Q.
  split; [|eauto]. exists st1, (c_stack c). split; [exact S1|]. split; [exact V1|]. split; [exact F1|].
  intros idss Hi. apply Forall2_app_inv_l in Hi. destruct Hi as (i1 & i2 & Hi1 & Hi2 & ->). inversion Hi2 as [|? ids ? r Ha Hr]; subst. inversion Hr; subst. cbn [snd] in Ha.
  destruct (push_reads attrs ids c c' st rest Ha H1 H2 Hp) as (st' & S' & V' & R' & _). rewrite S1 in S'. injection S' as <-.
  destruct (H4 i1 Hi1) as [L1 L2]. rewrite concat_app. cbn [concat]. rewrite app_nil_r.
  assert (Hl : sl_len (ml st1) = length (concat i1 ++ ids)) by (rewrite <- (read_length _ _ V1), R', !app_length, (read_length _ _ H2); lia).
  split; [exact Hl|]. intros Hn. rewrite R', L2; [reflexivity|]. rewrite app_length in Hn. lia.
Qed.

(** ** Adding paths *)
Definition with_paths (m : svgMask E) (l : list (svgPath E)) : svgMask E :=
  mkMask (mk_id m) (mk_x m) (mk_y m) (mk_w m) (mk_h m) (mk_paths m ++ l) (mk_transform m).
Definition gains (l : list (svgPath E)) (ms : list (svgMask E)) (c c' : cursor) : Prop :=
  sv_masks (c_svg c') = fold_left (fun M m => mput (mk_id m) m M) ms (sv_masks (c_svg c))
  /\ match c_mask c with
     | None => c_mask c' = None /\ sv_paths (c_svg c') = sv_paths (c_svg c) ++ l
     | Some m => c_mask c' = Some (with_paths m l) /\ sv_paths (c_svg c') = sv_paths (c_svg c)
     end.
Lemma gains_nil (c c' : cursor) : sv_paths (c_svg c') = sv_paths (c_svg c) -> sv_masks (c_svg c') = sv_masks (c_svg c) -> c_mask c' = c_mask c -> gains [] [] c c'.
Proof.
  intros H1 H2 H3. unfold gains. rewrite H1, H2, H3. split; [reflexivity|]. destruct (c_mask c) as [[i x y w h ps t]|]; unfold with_paths; cbn; rewrite app_nil_r; auto.
Qed.
Lemma gains_sa c c' : sa c c' -> gains [] [] c c'.
Proof. intros (H1 & H2 & H3 & _). now apply gains_nil. Qed.
Lemma gains_trans l1 m1 l2 m2 a b c : gains l1 m1 a b -> gains l2 m2 b c -> gains (l1 ++ l2) (m1 ++ m2) a c.
Proof.
  intros [A1 A2] [B1 B2]. split; [rewrite fold_left_app, B1, A1; reflexivity|]. destruct (c_mask a) as [m|].
  - destruct A2 as [A2 A3]. rewrite A2 in B2. destruct B2 as [B2 B3]. split; [rewrite B2; unfold with_paths; cbn; rewrite app_assoc; reflexivity|congruence].
  - destruct A2 as [A2 A3]. rewrite A2 in B2. destruct B2 as [B2 B3]. split; [exact B2|]. rewrite B3, A3, app_assoc. reflexivity.
Qed.
Lemma gains_sa_l l ms a b c : sa a b -> gains l ms b c -> gains l ms a c.
Proof. intros H K. exact (gains_trans [] [] l ms a b c (gains_sa _ _ H) K). Qed.
Lemma gains_sa_r l ms a b c : gains l ms a b -> sa b c -> gains l ms a c.
Proof. intros H K. pose proof (gains_trans l ms [] [] a b c H (gains_sa _ _ K)) as G. rewrite !app_nil_r in G. exact G. Qed.

(** ** Start elements *)
Lemma collect_gains (c c' : cursor) st rest : c_stack c = st :: rest -> c_inMask c = match c_mask c with Some _ => true | None => false end ->
  collectPath c = (c', Ret tt) ->
  exists l, length l <= 1 /\ (pc_path (c_pc c) = [] -> l = []) /\ Forall (fun p => sp_style p = st) l /\ gains l [] c c'
    /\ pc_path (c_pc c') = [] /\ flags c c' /\ c_stack c' = c_stack c /\ hp c' = hp c
    /\ c_inMask c' = match c_mask c' with Some _ => true | None => false end.
Proof.
  intros Hs Hm H. unfold collectPath, bind, gets in H. destruct (pc_path (c_pc c)) as [|o p] eqn:Hp.
  - injection H as <-. exists []. repeat split; auto. + apply gains_nil; reflexivity.
  - exists [mkSvgPath (o :: p) st]. split; [cbn; lia|]. split; [discriminate|]. split; [constructor; [reflexivity|constructor]|].
    rewrite Hm in H. unfold topStyle in H. destruct (c_mask c) as [m|] eqn:Hk.
    + rewrite Hs in H. injection H as <-. cbn. unfold gains, flags, with_paths. cbn. rewrite Hk. auto 20.
    + rewrite Hs in H. injection H as <-. cbn. unfold gains, flags. cbn. rewrite Hk. auto 20.
Qed.
Lemma onGrad_sf f : keeps sf (onGrad (E := E) f).
Proof. intros c. unfold onGrad. destruct (c_grad c) as [p|]; [|apply sf_refl]. destruct (nth_error (c_gheap c) p); [|apply sf_refl]. unfold sf, sa; auto 10. Qed.
Lemma stop_sf attrs : keeps sf (stopF (E := E) attrs).
Proof.
  unfold stopF. apply (keeps_bind _ sf_trans); [apply (keeps_gets _ sf_refl)|]. intros b. apply keeps_if; [|apply (keeps_ret _ sf_refl)].
  apply (keeps_bind _ sf_trans). { apply (keeps_foldM _ sf_refl sf_trans). intros l a. apply (kp_stopAttr _ sf_refl sf_trans). }
  intros s. apply onGrad_sf.
Qed.
Definition apart (t : string) : bool := String.eqb t "defs" || is_gradient t || String.eqb t "mask".
Lemma draw_sf fuel name df attrs : drawFunc (E := E) fuel name = Some df -> apart name = false -> keeps sf (df attrs).
Proof.
  unfold drawFunc, apart, is_gradient. intros H Hs. rewrite !orb_false_iff in Hs. destruct Hs as ((S1 & S2 & S3) & S4).
  rewrite ?S1, ?S2, ?S3, ?S4 in H.
  repeat match type of H with (if ?b then _ else _) = _ => destruct b; [injection H as <-|] end; try discriminate.
  - apply (kp_svgF _ sf_refl sf_trans sf_pc sf_svg). - apply (keeps_ret _ sf_refl). - apply (kp_lineF _ sf_refl sf_trans sf_pc).
  - apply stop_sf. - apply (kp_rectF _ sf_refl sf_trans sf_pc). - apply (kp_circleF _ sf_refl sf_trans sf_pc).
  - apply (kp_circleF _ sf_refl sf_trans sf_pc). - apply (kp_polylineF _ sf_refl sf_trans sf_pc). - apply (kp_polygonF _ sf_refl sf_trans sf_pc).
  - apply (kp_pathF _ sf_refl sf_trans sf_pc). - intros c. unfold sf, sa; auto 10. - intros c. unfold sf, sa; auto 10.
Qed.
(** only shapes draw *)
Lemma draw_kq fuel name df attrs : drawFunc (E := E) fuel name = Some df -> apart name = false -> shape_tag name = false -> keeps kpath (df attrs).
Proof.
  unfold drawFunc, apart, is_gradient, shape_tag. intros H Hs Ht. rewrite !orb_false_iff in Hs. destruct Hs as ((S1 & S2 & S3) & S4).
  cbn [existsb] in Ht. rewrite !orb_false_iff in Ht. destruct Ht as (T1 & T2 & T3 & T4 & T5 & T6 & T7 & _).
  rewrite ?S1, ?S2, ?S3, ?S4, ?T1, ?T2, ?T3, ?T4, ?T5, ?T6, ?T7 in H.
  repeat match type of H with (if ?b then _ else _) = _ => destruct b; [injection H as <-|] end; try discriminate.
  - unfold svgF. apply (keeps_bind _ kq_trans); [apply keeps_modify; reflexivity|]. intros u0. apply (keeps_bind _ kq_trans).
    + apply (keeps_foldM _ kq_refl kq_trans). intros [w h] a. unfold svgAttr.
      apply keeps_if; [|apply keeps_if; [|apply keeps_if; [|apply (keeps_ret _ kq_refl)]]].
      * apply (keeps_bind _ kq_trans); [apply keeps_attempt, kq_getPoints|]. intros er. apply (keeps_bind _ kq_trans); [apply (keeps_gets _ kq_refl)|]. intros ps.
        destruct ps as [|p1 [|p2 [|p3 [|p4 [|p5 ps]]]]]; try apply (keeps_raise _ kq_refl).
        apply (keeps_bind _ kq_trans); [apply keeps_modify; reflexivity|]. intros u1. destruct er; [apply (keeps_raise _ kq_refl)|apply (keeps_ret _ kq_refl)].
      * apply (keeps_bind _ kq_trans); [apply keeps_modify; reflexivity|]. intros u1. apply (keeps_bind _ kq_trans); [apply (keeps_lift _ kq_refl)|]. intros w'. apply (keeps_ret _ kq_refl).
      * apply (keeps_bind _ kq_trans); [apply keeps_modify; reflexivity|]. intros u1. apply (keeps_bind _ kq_trans); [apply (keeps_lift _ kq_refl)|]. intros w'. apply (keeps_ret _ kq_refl).
    + intros [w h]. apply keeps_modify. reflexivity.
  - apply (keeps_ret _ kq_refl).
  - apply kq_stopF.
  - intros c. reflexivity.
  - intros c. reflexivity.
Qed.
Lemma start_gains fuel name attrs (c c' : cursor) st rest : name <> "use"%string -> apart name = false -> here false false c -> c_stack c = st :: rest ->
  readStartElement fuel name attrs c = (c', Ret tt) ->
  exists l, length l <= 1 /\ (l <> [] -> shape_tag name = true) /\ Forall (fun p => sp_style p = st) l /\ gains l [] c c' /\ here false false c'.
Proof.
  intros Hn Ha Hh Hs H. destruct Hh as [H1 H2 H3 H4]. unfold readStartElement in H. erewrite bind_step in H by (unfold gets; reflexivity). cbv beta zeta in H.
  rewrite H1 in H. cbn [andb] in H. unfold drawFuncs in H. apply String.eqb_neq in Hn. rewrite Hn in H.
  destruct (drawFunc fuel name) as [df|] eqn:Hdf.
  2:{ pose proof (kp_handleError _ sf_refl sf_trans sf_pc (cannotProcess name) c) as K. pose proof (kq_handleError (cannotProcess name) c) as Q. unfold kpath in Q. rewrite H in K, Q. cbn [fst] in K, Q.
      exists []. split; [cbn; lia|]. split; [congruence|]. split; [constructor|]. split; [apply gains_sa, K|]. apply (here_sf _ _ c); [exact K|congruence|constructor; assumption]. }
  pose proof (draw_sf _ _ _ attrs Hdf Ha c) as K. assert (Q : shape_tag name = false -> pc_path (c_pc (fst (df attrs c))) = []).
  { intros Ht. rewrite <- H3. exact (draw_kq _ _ _ attrs Hdf Ha Ht c). }
  pose proof (kp_drawFunc (fun a b : cursor => c_stack b = c_stack a) (fun _ => eq_refl) (fun a b c0 X Y => eq_trans Y X)) as KS.
  specialize (KS (fun _ _ => eq_refl) (fun _ _ _ _ => eq_refl) (fun _ _ _ => eq_refl) (fun _ _ _ => eq_refl) (fun _ _ _ => eq_refl) (fun _ _ => eq_refl) (fun _ _ _ _ => eq_refl) (fun _ _ => eq_refl) fuel name df attrs Hdf c).
  unfold bind, attempt in H. destruct (df attrs c) as [c1 [[]|e| |]]; cbn [fst] in *; try discriminate.
  - destruct (collectPath c1) as [c2 [[]|e| |]] eqn:Hc; try discriminate. injection H as <-.
    destruct K as ((A1 & A2 & A3 & A4) & A5 & A6).
    destruct (collect_gains c1 c2 st rest) as (l & L1 & L2 & L3 & L4 & L5 & (L6 & L7 & L8) & _ & _ & L9); [congruence|rewrite A3, A4; exact H4|exact Hc|].
    exists l. split; [exact L1|]. split; [intros Hl; destruct (shape_tag name); [reflexivity|]; destruct (Hl (L2 (Q eq_refl)))|]. split; [exact L3|].
    split; [apply (gains_sa_l _ _ _ c1); [repeat split; assumption|exact L4]|]. constructor; [congruence|congruence|exact L5|exact L9].
  - destruct (collectPath c1) as [c2 [[]|e'| |]]; discriminate.
Qed.
Lemma start_apart_skip fuel name attrs (c c' : cursor) : here true false c -> is_gradient name = false -> readStartElement fuel name attrs c = (c', Ret tt) ->
  sa c c' /\ here true false c' /\ c_stack c' = c_stack c /\ hp c' = hp c.
Proof.
  intros [H1 H2 H3 H4] Hg H. unfold readStartElement in H. erewrite bind_step in H by (unfold gets; reflexivity). cbv beta zeta in H.
  unfold is_gradient in Hg. rewrite orb_comm in Hg. rewrite Hg, H1, H2 in H. cbn [orb negb andb] in H. unfold bind, flushDefs, addDef, modify in H.
  destruct (negb (String.eqb (attrID attrs) "")); cbn [ret] in H.
  - destruct (c_curDef c) as [|d l]; injection H as <-; cbn; (split; [unfold sa; auto|]); (split; [constructor; cbn; auto|auto]).
  - injection H as <-. cbn. split; [unfold sa; auto|]. split; [constructor; cbn; auto|auto].
Qed.
Lemma start_hs' fuel name attrs (c c' : cursor) : name <> "use"%string -> readStartElement fuel name attrs c = (c', Ret tt) -> c_stack c' = c_stack c /\ hp c' = hp c.
Proof. intros Hn H. pose proof (start_hs fuel name attrs Hn c) as K. rewrite H in K. exact K. Qed.
Definition sg (c c' : cursor) : Prop := sa c c' /\ c_inDefs c' = c_inDefs c.
Lemma sg_refl c : sg c c. Proof. unfold sg, sa; auto 10. Qed.
Lemma sg_trans a b c : sg a b -> sg b c -> sg a c. Proof. unfold sg, sa; intuition congruence. Qed.
Lemma start_grad fuel name attrs d (c c' : cursor) : is_gradient name = true -> here d false c -> readStartElement fuel name attrs c = (c', Ret tt) ->
  sa c c' /\ here d true c' /\ c_stack c' = c_stack c /\ hp c' = hp c.
Proof.
  intros Hg [H1 H2 H3 H4] H. assert (Hu : name <> "use"%string) by (intros ->; discriminate). pose proof (start_hs' _ _ _ _ _ Hu H) as HS.
  unfold readStartElement in H. erewrite bind_step in H by (unfold gets; reflexivity). cbv beta zeta in H.
  assert (Hg' : String.eqb name "radialGradient" || String.eqb name "linearGradient" = true) by (rewrite orb_comm; exact Hg).
  rewrite Hg' in H. cbn [orb negb] in H. rewrite andb_false_r in H. destruct (grad_drawFuncs (E := E) fuel name Hg) as (df & Hd & Hdf). rewrite Hd in H.
  assert (K1 : keeps sg (df attrs)).
  { destruct Hdf; subst df; [apply (kp_linearGradientF _ sg_refl sg_trans)|apply (kp_radialGradientF _ sg_refl sg_trans)]; intros; unfold sg, sa; auto 10. }
  assert (K2 : keeps kpath (df attrs)) by (destruct Hdf; subst df; [apply kq_linearGradientF|apply kq_radialGradientF]).
  assert (K3 : tri (fun _ => True) (df attrs) (fun _ c => c_inGrad c = true) (fun _ _ => True)) by (eapply gradient_sets; destruct Hdf; subst df; [left|right]; reflexivity).
  specialize (K1 c). specialize (K2 c). specialize (K3 c I). unfold kpath in K2. rewrite H3 in K2.
  unfold bind, attempt in H. destruct (df attrs c) as [c1 [[]|e| |]]; cbn [fst] in *; try discriminate.
  - rewrite (collect_nil c1 K2) in H. injection H as <-. destruct K1 as [K1 K1']. split; [exact K1|]. split; [|exact HS].
    constructor; [congruence|exact K3|exact K2|]. destruct K1 as (_ & _ & A3 & A4). rewrite A3, A4. exact H4.
  - rewrite (collect_nil c1 K2) in H. discriminate.
Qed.
Lemma start_stop' fuel attrs d (c c' : cursor) : here d true c -> readStartElement fuel "stop" attrs c = (c', Ret tt) ->
  sa c c' /\ here d true c' /\ c_stack c' = c_stack c /\ hp c' = hp c.
Proof.
  intros Hh H. assert (Hu : "stop"%string <> "use"%string) by discriminate. pose proof (start_hs' _ _ _ _ _ Hu H) as HS. pose proof Hh as [H1 H2 H3 H4].
  unfold readStartElement in H. erewrite bind_step in H by (unfold gets; reflexivity). cbv beta zeta in H.
  rewrite H2 in H. rewrite orb_true_r, andb_false_r in H. change (drawFuncs fuel "stop") with (Some (stopF (E := E))) in H.
  pose proof (stop_sf attrs c) as K1. pose proof (kq_stopF attrs c) as K2. unfold kpath in K2. rewrite H3 in K2.
  unfold bind, attempt in H. destruct (stopF attrs c) as [c1 [[]|e| |]]; cbn [fst] in *; try discriminate; rewrite (collect_nil c1 K2) in H; [|discriminate].
  injection H as <-. split; [apply K1|]. split; [exact (here_sf _ _ _ _ K1 K2 Hh)|exact HS].
Qed.
Lemma start_defs' fuel attrs (c c' : cursor) : here false false c -> readStartElement fuel "defs" attrs c = (c', Ret tt) ->
  sa c c' /\ here true false c' /\ c_stack c' = c_stack c /\ hp c' = hp c.
Proof.
  intros [H1 H2 H3 H4] H. unfold readStartElement in H. erewrite bind_step in H by (unfold gets; reflexivity). cbv beta zeta in H. rewrite H1 in H. cbn [andb] in H.
  change (drawFuncs fuel "defs") with (Some (defsF (E := E))) in H. unfold bind, attempt, defsF, modify in H. rewrite collect_nil in H by exact H3. injection H as <-.
  cbn. split; [unfold sa; auto|]. split; [constructor; cbn; auto|auto].
Qed.
Lemma mask_attrs_id attrs : forall id x y w h (c c' : cursor) r, foldM maskAttr (id, x, y, w, h) attrs c = (c', Ret r) ->
  c' = c /\ fst (fst (fst (fst r))) = text_attr "id" id attrs.
Proof.
  induction attrs as [|a attrs IH]; intros id x y w h c c' r H; cbn [foldM text_attr] in *.
  - injection H as <- <-. auto.
  - apply seqC in H. destruct H as (c1 & r1 & H1 & H). unfold maskAttr, is in H1.
    destruct (String.eqb (a_name a) "id").
    { destruct (String.length (a_val a) =? 0); [discriminate|]. injection H1 as <- <-. exact (IH _ _ _ _ _ _ _ _ H). }
    repeat match type of H1 with (if ?b then _ else _) _ = _ => destruct b end; unfold bind, cParseUnit in H1;
      try (match type of H1 with context [resolveUnit ?b ?v ?p] => destruct (resolveUnit b v p) end; try discriminate);
      injection H1 as <- <-; exact (IH _ _ _ _ _ _ _ _ H).
Qed.
Lemma start_mask' fuel attrs (c c' : cursor) : here false false c -> readStartElement fuel "mask" attrs c = (c', Ret tt) ->
  sv_paths (c_svg c') = sv_paths (c_svg c) /\ sv_masks (c_svg c') = sv_masks (c_svg c)
  /\ (exists m, c_mask c' = Some m /\ mk_id m = text_attr "id" "" attrs /\ mk_paths m = [])
  /\ here false false c' /\ c_stack c' = c_stack c /\ hp c' = hp c.
Proof.
  intros [H1 H2 H3 H4] H. unfold readStartElement in H. erewrite bind_step in H by (unfold gets; reflexivity). cbv beta zeta in H. rewrite H1 in H. cbn [andb] in H.
  change (drawFuncs fuel "mask") with (Some (maskF (E := E))) in H. unfold maskF in H.
  pose proof (mask_attrs_id attrs EmptyString (fnum E 0) (fnum E 0) (fnum E 0) (fnum E 0) c) as K.
  unfold attempt in H. unfold bind in H.
  destruct (foldM maskAttr (EmptyString, fnum E 0, fnum E 0, fnum E 0, fnum E 0) attrs c) as [c1 [[[[[id x] y] w] h]|e| |]]; try discriminate.
  - destruct (K _ _ eq_refl) as [-> K2]. cbn [fst] in K2. unfold modify in H. rewrite collect_nil in H by exact H3. injection H as <-. cbn.
    split; [reflexivity|]. split; [reflexivity|]. split; [eexists; split; [reflexivity|]; split; [exact K2|reflexivity]|]. split; [constructor; cbn; auto|auto].
  - destruct (collectPath c1) as [c2 [[]|e'| |]]; discriminate.
Qed.

(** ** End elements *)
Lemma end_plain name d g (c c' : cursor) : apart name = false -> here d g c -> endRest (E := E) name c = (c', Ret tt) ->
  sa c c' /\ here d g c' /\ c_stack c' = c_stack c /\ hp c' = hp c.
Proof.
  unfold apart, is_gradient. intros Ha Hh H. pose proof (rest_hs name c) as HS. rewrite H in HS. rewrite !orb_false_iff in Ha. destruct Ha as ((S1 & S2 & S3) & S4).
  unfold endRest in H. rewrite S1, S2, S3, S4 in H. cbn [orb] in H. pose proof Hh as [H1 H2 H3 H4].
  destruct (String.eqb name "g").
  { unfold bind, gets in H. destruct (c_inDefs c) eqn:Hd; injection H as <-; cbn; (split; [unfold sa; auto|]); (split; [constructor; cbn; congruence|auto]). }
  destruct (String.eqb name "title"). { injection H as <-. cbn. split; [unfold sa; auto|]. split; [constructor; cbn; congruence|auto]. }
  destruct (String.eqb name "desc"). { injection H as <-. cbn. split; [unfold sa; auto|]. split; [constructor; cbn; congruence|auto]. }
  injection H as <-. split; [apply sa_refl|]. auto.
Qed.
Lemma end_defs g (c c' : cursor) : here true g c -> endRest (E := E) "defs" c = (c', Ret tt) ->
  sa c c' /\ here false g c' /\ c_stack c' = c_stack c /\ hp c' = hp c.
Proof.
  intros [H1 H2 H3 H4] H. change (endRest (E := E) "defs") with (flushDefs (E := E) ;; modify (c_set_inDefs false)) in H.
  unfold bind, flushDefs, modify in H. destruct (c_curDef c); injection H as <-; cbn; (split; [unfold sa; auto|]); (split; [constructor; cbn; auto|auto]).
Qed.
Lemma end_grad name d (c c' : cursor) : is_gradient name = true -> here d true c -> endRest (E := E) name c = (c', Ret tt) ->
  sa c c' /\ here d false c' /\ c_stack c' = c_stack c /\ hp c' = hp c.
Proof.
  intros Hg [H1 H2 H3 H4] H.
  assert (Hm : endRest (E := E) name = modify (c_set_inGrad false)).
  { unfold is_gradient in Hg. apply orb_true_iff in Hg. destruct Hg as [Hg|Hg]; apply String.eqb_eq in Hg; subst name; reflexivity. }
  rewrite Hm in H. injection H as <-. cbn. split; [unfold sa; auto|]. split; [constructor; cbn; auto|auto].
Qed.
Lemma end_mask d g (c c' : cursor) : here d g c -> endRest (E := E) "mask" c = (c', Ret tt) ->
  sv_paths (c_svg c') = sv_paths (c_svg c) /\ c_mask c' = None
  /\ sv_masks (c_svg c') = match c_mask c with Some m => mput (mk_id m) m (sv_masks (c_svg c)) | None => sv_masks (c_svg c) end
  /\ here d g c' /\ c_stack c' = c_stack c /\ hp c' = hp c.
Proof.
  intros [H1 H2 H3 H4] H.
  change (endRest (E := E) "mask") with (m <- gets c_mask ;;
    (match m with Some m => onSvg (fun s => sv_set_masks (mput (mk_id m) m (sv_masks s)) s) ;; modify (c_set_mask None) | None => ret tt end) ;;
    modify (c_set_inMask false) : @C E unit) in H.
  unfold bind, gets, modify, onSvg, modify in H. destruct (c_mask c) as [m|] eqn:Hm; injection H as <-; cbn; repeat split; auto; cbn; rewrite ?Hm; auto.
Qed.

(** ** Content *)
Lemma elem_run fuel ch name attrs kids (c c' : cursor) : carries ch c -> mapM (stepToken fuel) (tokens (Elem name attrs kids)) c = (c', Ret tt) ->
  exists c1 c2 c3 c4, carries (ch ++ [(name, attrs)]) c1 /\ (exists st, c_stack c1 = st :: c_stack c) /\ hle n (hp c) (hp c1) /\ sf c c1 /\ pc_path (c_pc c1) = pc_path (c_pc c)
    /\ readStartElement fuel name attrs c1 = (c2, Ret tt) /\ mapM (stepToken fuel) (flat_map tokens kids) c2 = (c3, Ret tt)
    /\ popStyle c3 = (c4, Ret tt) /\ endRest name c4 = (c', Ret tt).
Proof.
  intros Hc H. cbn [tokens mapM stepToken] in H. apply seqC in H. destruct H as (c2 & [] & H1 & H). apply seqC in H1. destruct H1 as (c1 & [] & H0 & H1).
  rewrite mapM_app in H. apply seqC in H. destruct H as (c3 & [] & H2 & H). cbn [mapM stepToken] in H. apply seqC in H. destruct H as (c5 & [] & H4 & H). injection H as <-.
  rewrite endElement_rest in H4. apply seqC in H4. destruct H4 as (c4 & [] & H5 & H4).
  destruct (push_carries ch name attrs c c1 Hc H0) as (P1 & P2 & P3 & P4 & P5). exists c1, c2, c3, c4. auto 20.
Qed.
Lemma pop_run (c c' : cursor) st rest : c_stack c = st :: rest -> popStyle c = (c', Ret tt) -> c_stack c' = rest /\ hp c' = hp c /\ sf c c' /\ pc_path (c_pc c') = pc_path (c_pc c).
Proof. intros Hs H. unfold popStyle in H. rewrite Hs in H. injection H as <-. cbn. split; [reflexivity|]. split; [reflexivity|]. split; [apply sf_stack|reflexivity]. Qed.
(** content that draws nothing.  [k]: it contains no mask element *)
Definition idle fuel (k d g : bool) (toks : list token) : Prop := forall ch (c c' : cursor), here d g c -> (k = false -> c_mask c = None) -> carries ch c ->
  mapM (stepToken fuel) toks c = (c', Ret tt) -> sa c c' /\ here d g c' /\ c_stack c' = c_stack c /\ hle n (hp c) (hp c').
Lemma idle_nil fuel k d g : idle fuel k d g [].
Proof. intros ch c c' H1 H2 H3 H. injection H as <-. split; [apply sa_refl|]. split; [exact H1|]. split; [reflexivity|apply hle_refl]. Qed.
Lemma idle_app fuel k d g a b : idle fuel k d g a -> idle fuel k d g b -> idle fuel k d g (a ++ b).
Proof.
  intros Ha Hb ch c c' H1 H2 H3 H. rewrite mapM_app in H. apply seqC in H. destruct H as (c1 & [] & K1 & K2).
  destruct (Ha ch c c1 H1 H2 H3 K1) as (A1 & A2 & A3 & A4).
  destruct (Hb ch c1 c') as (B1 & B2 & B3 & B4); auto. { destruct A1 as (_ & _ & A1 & _). rewrite A1. exact H2. } { eapply carries_hle; eassumption. }
  split; [eapply sa_trans; eassumption|]. split; [exact B2|]. split; [congruence|eapply hle_trans; eassumption].
Qed.
Lemma idle_flat fuel k d g ns : Forall (fun m => idle fuel k d g (tokens m)) ns -> idle fuel k d g (flat_map tokens ns).
Proof. induction 1; [apply idle_nil|]. cbn [flat_map]. apply idle_app; assumption. Qed.
Lemma chars_run fuel s d g (c c' : cursor) : here d g c -> mapM (stepToken fuel) (tokens (Chars s)) c = (c', Ret tt) ->
  sa c c' /\ here d g c' /\ c_stack c' = c_stack c /\ hle n (hp c) (hp c').
Proof.
  intros H1 H. cbn [tokens mapM stepToken] in H. apply seqC in H. destruct H as (c1 & [] & K & H). injection H as <-.
  pose proof (chars_hs s c) as [S1 S2]. rewrite K in S1, S2. cbn [fst] in S1, S2.
  assert (sf c c1 /\ kpath c c1).
  { assert (Q : keeps (fun a b => sf a b /\ kpath a b) (charData (E := E) s)).
    { apply kp_charData; intros; try (split; [unfold sf, sa; auto 10|reflexivity]).
      match goal with X : sf _ _ /\ _, Y : sf _ _ /\ _ |- _ => destruct X, Y; split; [eapply sf_trans; eassumption|eapply kq_trans; eassumption] end. }
    specialize (Q c). rewrite K in Q. exact Q. }
  destruct H as [Hsf Hk]. split; [apply Hsf|]. split; [|rewrite S1, S2; split; [reflexivity|apply hle_refl]].
  apply (here_sf _ _ c); [exact Hsf|unfold kpath in Hk; rewrite Hk; apply H1|exact H1].
Qed.
Lemma idle_chars fuel k d g s : idle fuel k d g (tokens (Chars s)).
Proof. intros ch c c' H1 H2 H3 H. eapply chars_run; eassumption. Qed.
Lemma idle_misc fuel k d g : idle fuel k d g (tokens Misc).
Proof. intros ch c c' H1 H2 H3 H. injection H as <-. split; [apply sa_refl|]. split; [exact H1|]. split; [reflexivity|apply hle_refl]. Qed.
Lemma idle_elem fuel k d g d' g' name attrs kids :
  (forall c c', here d g c -> readStartElement fuel name attrs c = (c', Ret tt) -> sa c c' /\ here d' g' c' /\ c_stack c' = c_stack c /\ hp c' = hp c) ->
  idle fuel k d' g' (flat_map tokens kids) ->
  (forall c c' : cursor, here d' g' c -> (k = false -> c_mask c = None) -> endRest name c = (c', Ret tt) -> sa c c' /\ here d g c' /\ c_stack c' = c_stack c /\ hp c' = hp c) ->
  idle fuel k d g (tokens (Elem name attrs kids)).
Proof.
  intros Hs Hk He ch c c' H1 H2 H3 H. destruct (elem_run fuel ch name attrs kids c c' H3 H) as (c1 & c2 & c3 & c4 & P1 & (st & P2) & P3 & P4 & P5 & R1 & R2 & R3 & R4).
  assert (A1 : here d g c1) by (apply (here_sf _ _ c); [exact P4|rewrite P5; apply H1|exact H1]).
  destruct (Hs c1 c2 A1 R1) as (B1 & B2 & B3 & B4). assert (M2 : k = false -> c_mask c2 = None).
  { intros Q. destruct B1 as (_ & _ & -> & _). destruct P4 as ((_ & _ & -> & _) & _). auto. }
  destruct (Hk (ch ++ [(name, attrs)]) c2 c3 B2 M2) as (C1 & C2 & C3 & C4); [apply (carries_hle _ c1); [exact B3|rewrite B4; apply hle_refl|exact P1]|exact R2|].
  destruct (pop_run c3 c4 st (c_stack c)) as (D1 & D2 & D3 & D4); [congruence|exact R3|].
  assert (A4 : here d' g' c4) by (apply (here_sf _ _ c3); [exact D3|rewrite D4; apply C2|exact C2]).
  destruct (He c4 c' A4) as (E1 & E2 & E3 & E4).
  { intros Q. destruct D3 as ((_ & _ & -> & _) & _). destruct C1 as (_ & _ & -> & _). auto. } { exact R4. }
  split; [|split; [exact E2|split; [congruence|]]].
  - eapply sa_trans; [apply P4|]. eapply sa_trans; [exact B1|]. eapply sa_trans; [exact C1|]. eapply sa_trans; [apply D3|exact E1].
  - rewrite E4, D2. eapply hle_trans; [exact P3|]. rewrite <- B4. exact C4.
Qed.
Lemma idle_no_elements fuel k d g ns : no_elements ns = true -> idle fuel k d g (flat_map tokens ns).
Proof.
  unfold no_elements. intros H. apply idle_flat. rewrite Forall_forall. intros m Hm. rewrite forallb_forall in H. specialize (H m Hm).
  destruct m; [discriminate|apply idle_chars|apply idle_misc].
Qed.
Lemma idle_stops fuel k d ns : stops_only ns = true -> idle fuel k d true (flat_map tokens ns).
Proof.
  unfold stops_only. intros H. apply idle_flat. rewrite Forall_forall. intros m Hm. rewrite forallb_forall in H. specialize (H m Hm).
  destruct m as [name attrs kids|s|]; [|apply idle_chars|apply idle_misc]. apply andb_prop in H as [Hn H]. apply String.eqb_eq in Hn. subst name.
  apply (idle_elem fuel k d true d true); [intros c c'; apply start_stop'|apply idle_no_elements, H|]. intros c c' Hh _. now apply end_plain.
Qed.
Lemma idle_grad fuel k d name attrs kids : is_gradient name = true -> stops_only kids = true -> idle fuel k d false (tokens (Elem name attrs kids)).
Proof.
  intros Hg H. apply (idle_elem fuel k d false d true); [intros c c'; now apply start_grad|apply idle_stops, H|]. intros c c' Hh _. now apply end_grad.
Qed.
Lemma idle_in_defs fuel k m : tidy false true m = true -> (k = true -> mentions "mask" m = false) -> idle fuel k true false (tokens m).
Proof.
  revert m. apply (node_ind' (fun m => tidy false true m = true -> (k = true -> mentions "mask" m = false) -> idle fuel k true false (tokens m))).
  - intros name attrs kids IH Ht Hm. cbn [tidy] in Ht. destruct (is_gradient name) eqn:Hg; [now apply idle_grad|].
    apply andb_prop in Ht as [Ht Hk]. apply andb_prop in Ht as [Ht _]. apply negb_true_iff in Ht.
    apply (idle_elem fuel k true false true false); [intros c c' H; now apply start_apart_skip| |].
    + apply idle_flat. rewrite Forall_forall in IH |- *. rewrite forallb_forall in Hk. intros x Hx. apply IH; auto.
      intros Q. specialize (Hm Q). cbn [mentions] in Hm. apply orb_false_iff in Hm as [_ Hm]. rewrite <- not_true_iff_false in Hm |- *. intros Q'. apply Hm. apply existsb_exists. eauto.
    + intros c c' Hh Hc H. destruct (String.eqb name "mask") eqn:Hn.
      * apply String.eqb_eq in Hn. subst name. destruct k; [specialize (Hm eq_refl); discriminate|]. specialize (Hc eq_refl).
        destruct (end_mask true false c c' Hh H) as (A1 & A2 & A3 & A4 & A5 & A6). rewrite Hc in A3. split; [|auto].
        unfold sa. rewrite A1, A2, A3, Hc. split; [reflexivity|]. split; [reflexivity|]. split; [reflexivity|].
        destruct Hh as [_ _ _ Hh]. destruct A4 as [_ _ _ A4]. rewrite A4, Hh, A2, Hc. reflexivity.
      * apply (end_plain name); auto. unfold apart. rewrite Ht, Hg, Hn. reflexivity.
  - intros s _ _. apply idle_chars.
  - intros _ _. apply idle_misc.
Qed.
Lemma idle_defs fuel k attrs kids : forallb (tidy false true) kids = true -> (k = true -> existsb (mentions "mask") kids = false) -> idle fuel k false false (tokens (Elem "defs" attrs kids)).
Proof.
  intros Ht Hm. apply (idle_elem fuel k false false true false); [intros c c'; apply start_defs'| |].
  - apply idle_flat. rewrite forallb_forall in Ht. rewrite Forall_forall. intros x Hx. apply idle_in_defs; auto.
    intros Q. specialize (Hm Q). rewrite <- not_true_iff_false in Hm |- *. intros Q'. apply Hm. apply existsb_exists. eauto.
  - intros c c' Hh _. now apply end_defs.
Qed.

(** ** The elements that draw *)
Definition good (h : heap) (ch : chain) (ps : list (svgPath E)) : Prop :=
  length ps <= 1
  /\ (ps <> [] -> exists above name attrs, ch = above ++ [(name, attrs)] /\ shape_tag name = true)
  /\ Forall (fun p => valid h (ml (sp_style p)) /\ lists h ch (ml (sp_style p))) ps.
Lemma good_hle h h' ch ps : hle n h h' -> good h ch ps -> good h' ch ps.
Proof.
  intros Hh (H1 & H2 & H3). split; [exact H1|]. split; [exact H2|]. eapply Forall_impl; [|exact H3]. intros p [V L].
  split; [eapply valid_hle; eassumption|eapply lists_hle; eassumption].
Qed.
Definition goods h := Forall2 (good h).
Lemma goods_hle h h' chs pss : hle n h h' -> goods h chs pss -> goods h' chs pss.
Proof. intros Hh. induction 1; constructor; auto. eapply good_hle; eassumption. Qed.
Definition goodm (h : heap) (e : list attr * list chain) (m : svgMask E) : Prop :=
  mk_id m = text_attr "id" "" (fst e) /\ exists pss, goods h (snd e) pss /\ mk_paths m = concat pss.
Definition goodms h := Forall2 (goodm h).
Lemma goodms_hle h h' es ms : hle n h h' -> goodms h es ms -> goodms h' es ms.
Proof. intros Hh. induction 1 as [|e m es ms (H1 & pss & H2 & H3) _ IH]; constructor; auto. split; [exact H1|]. exists pss. split; [eapply goods_hle; eassumption|exact H3]. Qed.

Definition who fuel (k : bool) (toks : list token) (ch : chain) (chs : list chain) (es : list (list attr * list chain)) : Prop :=
  forall c c' : cursor, here false false c -> (k = false -> c_mask c = None) -> carries ch c -> mapM (stepToken fuel) toks c = (c', Ret tt) ->
  exists pss ms, goods (hp c') chs pss /\ goodms (hp c') es ms /\ (k = true -> ms = []) /\ gains (concat pss) ms c c'
    /\ here false false c' /\ c_stack c' = c_stack c /\ hle n (hp c) (hp c').
Lemma gains_mask l ms c c' : gains l ms c c' -> c_mask c = None -> c_mask c' = None.
Proof. intros [_ H] Hc. rewrite Hc in H. apply H. Qed.
Lemma who_idle fuel k toks ch : idle fuel k false false toks -> who fuel k toks ch [] [].
Proof.
  intros H c c' H1 H2 H3 Hr. destruct (H ch c c' H1 H2 H3 Hr) as (A1 & A2 & A3 & A4). exists [], []. split; [constructor|]. split; [constructor|]. split; [reflexivity|].
  split; [apply gains_sa, A1|auto].
Qed.
Lemma who_app fuel k a b ch c1 e1 c2 e2 : who fuel k a ch c1 e1 -> who fuel k b ch c2 e2 -> who fuel k (a ++ b) ch (c1 ++ c2) (e1 ++ e2).
Proof.
  intros Ha Hb c c' H1 H2 H3 H. rewrite mapM_app in H. apply seqC in H. destruct H as (cm & [] & K1 & K2).
  destruct (Ha c cm H1 H2 H3 K1) as (p1 & m1 & A1 & A2 & A3 & A4 & A5 & A6 & A7).
  destruct (Hb cm c') as (p2 & m2 & B1 & B2 & B3 & B4 & B5 & B6 & B7); auto. { intros Q. eapply gains_mask; eauto. } { eapply carries_hle; eassumption. }
  exists (p1 ++ p2), (m1 ++ m2). split; [apply Forall2_app; [eapply goods_hle; eassumption|exact B1]|]. split; [apply Forall2_app; [eapply goodms_hle; eassumption|exact B2]|].
  split; [intros Q; rewrite (A3 Q), (B3 Q); reflexivity|]. rewrite concat_app. split; [eapply gains_trans; eassumption|]. split; [exact B5|]. split; [congruence|eapply hle_trans; eassumption].
Qed.
Lemma who_flat fuel k ch ns : Forall (fun m => who fuel k (tokens m) ch (drawers ch m) (mask_elements ch m)) ns ->
  who fuel k (flat_map tokens ns) ch (flat_map (drawers ch) ns) (flat_map (mask_elements ch) ns).
Proof. induction 1; [apply who_idle, idle_nil|]. cbn [flat_map]. apply who_app; assumption. Qed.
Lemma no_mention t kids m : existsb (mentions t) kids = false -> List.In m kids -> mentions t m = false.
Proof. intros H Hm. rewrite <- not_true_iff_false in H |- *. intros Q. apply H. apply existsb_exists. eauto. Qed.
Lemma gains_start (c1 c2 : cursor) st l : c_stack c1 = st :: l -> forall ch name attrs ps, carries (ch ++ [(name, attrs)]) c1 -> hp c2 = hp c1 ->
  length ps <= 1 -> (ps <> [] -> shape_tag name = true) -> Forall (fun p => sp_style p = st) ps -> good (hp c2) (ch ++ [(name, attrs)]) ps.
Proof.
  intros Hs ch name attrs ps (st' & rest & S1 & V & _ & L) Hh H1 H2 H3. rewrite Hs in S1. injection S1 as <- <-. rewrite Hh. split; [exact H1|]. split; [eauto 10|].
  eapply Forall_impl; [|exact H3]. intros p ->. auto.
Qed.
Theorem who_node fuel m : forall k ch, tidy false false m = true -> flat_in "mask" m = true -> (k = true -> mentions "mask" m = false) ->
  who fuel k (tokens m) ch (drawers ch m) (mask_elements ch m).
Proof.
  revert m. apply (node_ind' (fun m => forall k ch, tidy false false m = true -> flat_in "mask" m = true -> (k = true -> mentions "mask" m = false) ->
    who fuel k (tokens m) ch (drawers ch m) (mask_elements ch m))).
  - intros name attrs kids IH k ch Ht Hf Hm. cbn [tidy] in Ht. cbn [drawers mask_elements]. destruct (is_gradient name) eqn:Hg.
    { rewrite orb_true_r. cbn [orb]. apply who_idle. now apply idle_grad. }
    destruct (String.eqb_spec name "defs") as [->|Hd].
    { cbn [orb]. apply who_idle. apply andb_prop in Ht as [_ Ht]. apply idle_defs; [exact Ht|]. intros Q. specialize (Hm Q). cbn [mentions] in Hm. apply orb_false_iff in Hm. apply Hm. }
    cbn [orb]. apply andb_prop in Ht as [Hu Ht]. cbn [orb] in Hu. apply negb_true_iff, String.eqb_neq in Hu. cbn [flat_in] in Hf. rewrite Forall_forall in IH. rewrite forallb_forall in Ht.
    destruct (String.eqb_spec name "mask") as [->|Hn].
    + change (String.eqb "mask" "mask") with true in Hf. cbv iota in Hf. apply negb_true_iff in Hf.
      assert (KW : who fuel true (flat_map tokens kids) (ch ++ [("mask"%string, attrs)]) (flat_map (drawers (ch ++ [("mask"%string, attrs)])) kids) (flat_map (mask_elements (ch ++ [("mask"%string, attrs)])) kids)).
      { apply who_flat. rewrite Forall_forall. intros x Hx. pose proof (no_mention _ _ _ Hf Hx) as Hno. apply IH; auto. clear - Hno.
        revert x Hno. apply (node_ind' (fun x => mentions "mask" x = false -> flat_in "mask" x = true)); try reflexivity. intros name attrs kids IH H. cbn [mentions flat_in] in *.
        apply orb_false_iff in H as [H1 H2]. rewrite H1. rewrite Forall_forall in IH. apply forallb_forall. intros x Hx. apply IH; [exact Hx|]. eapply no_mention; eassumption. }
      intros c c' H1 H2 H3 H. destruct k; [specialize (Hm eq_refl); discriminate|]. specialize (H2 eq_refl).
      destruct (elem_run fuel ch "mask" attrs kids c c' H3 H) as (c1 & c2 & c3 & c4 & P1 & (st & P2) & P3 & P4 & P5 & R1 & R2 & R3 & R4).
      assert (A1 : here false false c1) by (apply (here_sf _ _ c); [exact P4|rewrite P5; apply H1|exact H1]).
      destruct (start_mask' fuel attrs c1 c2 A1 R1) as (B1 & B2 & (m0 & B3 & B4 & B5) & B6 & B7 & B8).
      destruct (KW c2 c3) as (pss & ms & C1 & C2 & C3 & C4 & C5 & C6 & C7); auto; [discriminate|apply (carries_hle _ c1); [exact B7|rewrite B8; apply hle_refl|exact P1]|].
      rewrite (C3 eq_refl) in *. destruct C4 as [G1 G2]. rewrite B3 in G2. destruct G2 as [G2 G3]. cbn [fold_left] in G1.
      destruct (pop_run c3 c4 st (c_stack c)) as (D1 & D2 & D3 & D4); [congruence|exact R3|].
      assert (A4 : here false false c4) by (apply (here_sf _ _ c3); [exact D3|rewrite D4; apply C5|exact C5]).
      destruct (end_mask false false c4 c' A4 R4) as (E1 & E2 & E3 & E4 & E5 & E6). destruct D3 as ((D31 & D32 & D33 & D34) & _). destruct P4 as ((P41 & P42 & P43 & P44) & _).
      exists [], [with_paths m0 (concat pss)]. split; [constructor|]. split.
      { constructor; [|constructor]. split; [exact B4|]. exists pss. cbn [snd fst]. split; [rewrite E6, D2; exact C1|]. cbn. rewrite B5. reflexivity. }
      split; [discriminate|]. split.
      { unfold gains. rewrite H2. cbn [fold_left]. rewrite E3, D33, G2, E1, D31, D32, G1, G3, B1, B2, P41, P42, E2. cbn. rewrite app_nil_r. auto. }
      split; [exact E4|]. split; [congruence|]. rewrite E6, D2. eapply hle_trans; [exact P3|]. rewrite <- B8. exact C7.
    + assert (Hap : apart name = false) by (unfold apart; apply String.eqb_neq in Hd, Hn; rewrite Hd, Hg, Hn; reflexivity).
      apply String.eqb_neq in Hn. rewrite forallb_forall in Hf.
      assert (KW : who fuel k (flat_map tokens kids) (ch ++ [(name, attrs)]) (flat_map (drawers (ch ++ [(name, attrs)])) kids) (flat_map (mask_elements (ch ++ [(name, attrs)])) kids)).
      { apply who_flat. rewrite Forall_forall. intros x Hx. apply IH; auto.
        intros Q. specialize (Hm Q). cbn [mentions] in Hm. apply orb_false_iff in Hm as [_ Hm]. eapply no_mention; eassumption. }
      intros c c' H1 H2 H3 H. destruct (elem_run fuel ch name attrs kids c c' H3 H) as (c1 & c2 & c3 & c4 & P1 & (st & P2) & P3 & P4 & P5 & R1 & R2 & R3 & R4).
      assert (A1 : here false false c1) by (apply (here_sf _ _ c); [exact P4|rewrite P5; apply H1|exact H1]).
      destruct (start_gains fuel name attrs c1 c2 st (c_stack c) Hu Hap A1 P2 R1) as (l & B1 & B2 & B3 & B4 & B5).
      destruct (start_hs' fuel name attrs c1 c2 Hu R1) as [B6 B7].
      pose proof (gains_start c1 c2 st (c_stack c) P2 ch name attrs l P1 B7 B1 B2 B3) as Gl.
      destruct (KW c2 c3) as (pss & ms & C1 & C2 & C3 & C4 & C5 & C6 & C7); auto.
      { intros Q. eapply gains_mask; [exact B4|]. destruct P4 as ((_ & _ & -> & _) & _). auto. }
      { apply (carries_hle _ c1); [exact B6|rewrite B7; apply hle_refl|exact P1]. }
      destruct (pop_run c3 c4 st (c_stack c)) as (D1 & D2 & D3 & D4); [congruence|exact R3|].
      assert (A4 : here false false c4) by (apply (here_sf _ _ c3); [exact D3|rewrite D4; apply C5|exact C5]).
      destruct (end_plain name false false c4 c' Hap A4 R4) as (E1 & E2 & E3 & E4).
      exists (l :: pss), ms. assert (Hh : hp c' = hp c3) by congruence. rewrite Hh. split; [constructor; [eapply good_hle; eassumption|exact C1]|]. split; [exact C2|]. split; [exact C3|].
      split. { cbn [concat]. apply (gains_sa_l _ _ c c1); [apply P4|]. apply (gains_sa_r _ _ c1 c4 c'); [|exact E1]. apply (gains_sa_r _ _ c1 c3 c4); [|apply D3].
               exact (gains_trans l [] (concat pss) ms c1 c2 c3 B4 C4). }
      split; [exact E2|]. split; [congruence|]. eapply hle_trans; [exact P3|]. rewrite <- B7. exact C7.
  - intros s k ch _ _ _. apply who_idle, idle_chars.
  - intros k ch _ _ _. apply who_idle, idle_misc.
Qed.
Lemma mput_last (ms : list (svgMask E)) : forall id M, mget id (fold_left (fun M m => mput (mk_id m) m M) ms M)
  = match find (fun m => String.eqb (mk_id m) id) (rev ms) with Some m => Some m | None => mget id M end.
Proof.
  induction ms as [|m ms IH] using rev_ind; intros id M; [reflexivity|]. rewrite fold_left_app, rev_app_distr. cbn [fold_left rev app find].
  rewrite mget_put, (String.eqb_sym id). destruct (String.eqb (mk_id m) id); [reflexivity|apply IH].
Qed.
Theorem document_who fuel mode ns (s : svg E) log : who_doc ns = true -> parse fuel mode (flat_map tokens ns) TermEOF = PSvg s None log ->
  of_elements n s (flat_map (drawers []) ns) (sv_paths s)
  /\ exists ms, Forall2 (of_mask n s) (flat_map (mask_elements []) ns) ms
     /\ forall id, mget id (sv_masks s) = find (fun m => String.eqb (mk_id m) id) (rev ms).
Proof.
  intros Hw H. assert (R : exists c', mapM (stepToken fuel) (flat_map tokens ns) (cursor0 mode) = (c', Ret tt) /\ s = c_svg c').
  { unfold parse in H. destruct (mapM (stepToken fuel) (flat_map tokens ns) (cursor0 mode)) as [c' [[]|e| |]]; try discriminate.
    destruct (seenTag _); [|discriminate]. injection H as <- _. eauto. }
  destruct R as (c' & R & ->).
  assert (K : who fuel false (flat_map tokens ns) [] (flat_map (drawers []) ns) (flat_map (mask_elements []) ns)).
  { apply who_flat. unfold who_doc in Hw. rewrite forallb_forall in Hw. rewrite Forall_forall. intros x Hx. apply Hw in Hx. apply andb_prop in Hx as [X1 X2]. apply who_node; auto. discriminate. }
  destruct (K (cursor0 mode) c') as (pss & ms & C1 & C2 & _ & (G1 & _ & G2) & _); auto.
  { constructor; reflexivity. }
  { exists defaultStyle, []. split; [reflexivity|]. split; [unfold valid; cbn; lia|]. split; [right; auto|]. intros idss Hi. inversion Hi; subst. auto. }
  assert (T : forall ch ps, good (hp c') ch ps -> of_element n (c_svg c') ch ps).
  { intros ch ps (T1 & T2 & T3). split; [exact T1|]. split; [exact T2|]. intros p idss Hp Hi. rewrite Forall_forall in T3. destruct (T3 p Hp) as [_ L]. exact (L idss Hi). }
  split; [exists pss; split; [clear -C1 T; induction C1; constructor; auto|exact G2]|].
  exists ms. split.
  - clear -C2 T. induction C2 as [|e m es ms (H1 & pss & H2 & H3) _ IH]; constructor; auto. split; [exact H1|]. exists pss. split; [|exact H3].
    clear -H2 T. induction H2; constructor; auto.
  - intros id. rewrite G1, mput_last. destruct (find _ _); reflexivity.
Qed.
End Who.

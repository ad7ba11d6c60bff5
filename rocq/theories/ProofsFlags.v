(** * ProofsFlags: definitions, titles and descriptions (C25, C26) *)
From Coq Require Import Lia.
From Verif Require Export SpecTidy Triples ProofsGrad ProofsMasks ProofsShape ProofsDoc.
Local Open Scope go_scope.

Section Flags.
Context {E : Env}.
Notation cursor := (cursor E).

(** ** Parts a plain element does not touch *)
Record core (c c' : cursor) : Prop := mkCore {
  k_inTitle : c_inTitle c' = c_inTitle c; k_inDesc : c_inDesc c' = c_inDesc c; k_inGrad : c_inGrad c' = c_inGrad c;
  k_inDefs : c_inDefs c' = c_inDefs c; k_mask : c_mask c' = c_mask c; k_curDef : c_curDef c' = c_curDef c;
  k_defs : sv_defs (c_svg c') = sv_defs (c_svg c); k_titles : sv_titles (c_svg c') = sv_titles (c_svg c);
  k_descs : sv_descs (c_svg c') = sv_descs (c_svg c); k_masks : sv_masks (c_svg c') = sv_masks (c_svg c);
  k_paths : sv_paths (c_svg c') = sv_paths (c_svg c) }.
Lemma co_refl c : core c c. Proof. constructor; reflexivity. Qed.
Lemma co_trans a b c : core a b -> core b c -> core a c.
Proof. intros [] []. constructor; congruence. Qed.
Lemma co_pc p c : core c (c_set_pc p c). Proof. constructor; reflexivity. Qed.
Lemma co_stack s c : core c (c_set_stack s c). Proof. constructor; reflexivity. Qed.
Lemma co_heap h c : core c (c_set_svg (sv_set_mheap h (c_svg c)) c). Proof. constructor; reflexivity. Qed.
Lemma co_svg v w h c : core c (c_set_svg (sv_set_viewBox v (sv_set_width w (sv_set_height h (c_svg c)))) c). Proof. constructor; reflexivity. Qed.
Definition special (t : string) : bool := existsb (String.eqb t) ["title"; "desc"; "mask"; "defs"; "linearGradient"; "radialGradient"]%string.
Definition tame (l : list definition) : Prop := Forall (fun d => special (d_tag d) = false) l.
Definition tame_defs (c : cursor) : Prop := Forall (fun e => tame (snd e)) (sv_defs (c_svg c)).

(** functions that keep the path being drawn *)
Definition kpath (c c' : cursor) : Prop := pc_path (c_pc c') = pc_path (c_pc c).
Lemma kq_refl c : kpath c c. Proof. reflexivity. Qed.
Lemma kq_trans a b c : kpath a b -> kpath b c -> kpath a c. Proof. unfold kpath. congruence. Qed.
Notation kq := (keeps kpath).
Ltac qstep := first [ assumption
  | match goal with
    | |- forall _, _ => intros ?
    | |- keeps _ (ret _) => apply (keeps_ret _ kq_refl)
    | |- keeps _ (raise _) => apply (keeps_raise _ kq_refl)
    | |- keeps _ (lift _) => apply (keeps_lift _ kq_refl)
    | |- keeps _ (gets _) => apply (keeps_gets _ kq_refl)
    | |- keeps _ (bind _ _) => apply (keeps_bind _ kq_trans)
    | |- keeps _ (attempt _) => apply keeps_attempt
    | |- keeps _ (if _ then _ else _) => apply keeps_if
    | |- keeps _ (match ?x with _ => _ end) => destruct x
    | |- keeps _ (let _ := _ in _) => cbv zeta
    | |- keeps _ (modify _) => apply keeps_modify; intros ?; reflexivity
    | |- keeps _ (foldM _ _ _) => apply (keeps_foldM _ kq_refl kq_trans)
    end ].
Ltac qs := repeat qstep.
Lemma kq_getPoints s : kq (liftP (getPoints s)).
Proof. intros c. unfold liftP. rewrite getPoints_numbers. reflexivity. Qed.
Lemma kq_handleError s : kq (handleError s).
Proof. unfold handleError. qs. intros c. reflexivity. Qed.
Lemma kq_parseTransform v : kq (parseTransform v).
Proof. unfold parseTransform. qs. { apply (kp_topStyle _ kq_refl). } unfold transformStep. qs. apply kq_getPoints. Qed.
Lemma kq_readStyleAttr st k v : kq (readStyleAttr st k v).
Proof.
  unfold readStyleAttr.
  repeat (qstep || apply (kp_readGradURL _ kq_refl kq_trans) || apply kq_handleError || apply (kp_cParseUnit _ kq_refl)
   || apply (kp_parseDashes _ kq_refl kq_trans) || apply kq_parseTransform || (apply (kp_appendStr kpath); intros; reflexivity)).
Qed.
Lemma kq_pushStyle attrs : kq (pushStyle attrs).
Proof. unfold pushStyle. qs. { apply (kp_topStyle _ kq_refl). } unfold stylePair. qs. apply kq_readStyleAttr. Qed.
Lemma kq_onGrad f : kq (onGrad f).
Proof. intros c. unfold onGrad. destruct (c_grad c) as [p|]; [|reflexivity]. destruct (nth_error (c_gheap c) p); reflexivity. Qed.
Lemma kq_newGrad : kq newGrad. Proof. intros c. reflexivity. Qed.
Lemma kq_registerGrad id : kq (registerGrad id). Proof. intros c. unfold registerGrad. destruct (c_grad c); reflexivity. Qed.
Lemma kq_theGrad : kq theGrad. Proof. intros c. unfold theGrad. destruct (c_grad c); reflexivity. Qed.
Lemma kq_readGradAttr a : kq (readGradAttr a).
Proof. unfold readGradAttr. repeat (qstep || apply kq_onGrad || apply kq_parseTransform). Qed.
Lemma kq_linearGradientF attrs : kq (linearGradientF attrs).
Proof.
  unfold linearGradientF. repeat (qstep || apply kq_newGrad || apply kq_theGrad || apply kq_onGrad || apply (kp_cParseUnit _ kq_refl)).
  unfold linAttr. repeat (qstep || apply kq_registerGrad || apply kq_readGradAttr).
Qed.
Lemma kq_radialGradientF attrs : kq (radialGradientF attrs).
Proof.
  unfold radialGradientF. repeat (qstep || apply kq_newGrad || apply kq_theGrad || apply kq_onGrad || apply (kp_cParseUnit _ kq_refl)).
  unfold radAttr. repeat (qstep || apply kq_registerGrad || apply kq_readGradAttr).
Qed.
Lemma kq_stopF attrs : kq (stopF attrs).
Proof. unfold stopF. repeat (qstep || apply kq_onGrad). unfold stopAttr. repeat (qstep || apply (kp_cParseUnit _ kq_refl)). Qed.

(** ** Elements without a special meaning *)
Lemma co_onGrad f : keeps core (onGrad f).
Proof. intros c. unfold onGrad. destruct (c_grad c) as [p|]; [|apply co_refl]. destruct (nth_error (c_gheap c) p); [|apply co_refl]. constructor; reflexivity. Qed.
Lemma co_stopF attrs : keeps core (stopF attrs).
Proof.
  unfold stopF. apply (keeps_bind _ co_trans); [apply (keeps_gets _ co_refl)|]. intros b. apply keeps_if; [|apply (keeps_ret _ co_refl)].
  apply (keeps_bind _ co_trans). { apply (keeps_foldM _ co_refl co_trans). intros l a. apply (kp_stopAttr _ co_refl co_trans). }
  intros s. apply co_onGrad.
Qed.
Lemma draw_core fuel name df attrs : drawFunc (E := E) fuel name = Some df -> special name = false -> keeps core (df attrs).
Proof.
  unfold drawFunc, special. intros H Hs. cbn [existsb] in Hs. rewrite !orb_false_iff in Hs. destruct Hs as (S1 & S2 & S3 & S4 & S5 & S6 & _).
  rewrite ?S1, ?S2, ?S3, ?S4, ?S5, ?S6 in H.
  repeat match type of H with (if ?b then _ else _) = _ => destruct b; [injection H as <-|] end; try discriminate.
  - apply (kp_svgF _ co_refl co_trans co_pc co_svg). - apply (keeps_ret _ co_refl). - apply (kp_lineF _ co_refl co_trans co_pc).
  - apply co_stopF. - apply (kp_rectF _ co_refl co_trans co_pc). - apply (kp_circleF _ co_refl co_trans co_pc).
  - apply (kp_circleF _ co_refl co_trans co_pc). - apply (kp_polylineF _ co_refl co_trans co_pc). - apply (kp_polygonF _ co_refl co_trans co_pc).
  - apply (kp_pathF _ co_refl co_trans co_pc).
Qed.
Lemma co_pushStyle attrs : keeps core (pushStyle attrs).
Proof. apply (kp_pushStyle _ co_refl co_trans co_pc co_heap). intros. apply co_stack. Qed.
Lemma co_popStyle : keeps core popStyle.
Proof. intros c. unfold popStyle. destruct (c_stack c); [apply co_refl|apply co_stack]. Qed.
Lemma co_handleError s : keeps core (handleError s).
Proof. apply (kp_handleError _ co_refl co_trans co_pc). Qed.

Section Use.
Context (c0 : cursor) (H0 : tame_defs c0).
Notation inv m := (tri (core c0) m (fun _ => core c0) (fun _ => core c0)).
Lemma inv_core {A} (m : @C E A) : keeps core m -> inv m.
Proof. intros H. apply (tri_keeps core); [exact H|]. intros s t H1 H2. eapply co_trans; eassumption. Qed.
Lemma inv_useLoop draw ds : tame ds -> (forall t df attrs, draw t = Some df -> special t = false -> inv (df attrs)) -> inv (useLoop draw ds).
Proof.
  intros Hd Hdraw. induction Hd as [|d ds Hd Hds IH]; cbn [useLoop]; [apply tri_ret; auto|].
  apply tri_if. { eapply tri_bind; [apply inv_core, co_popStyle|]. intros []. apply IH. }
  eapply tri_bind; [apply inv_core, co_pushStyle|]. intros u1. destruct (draw (d_tag d)) as [df|] eqn:Hdf; [|apply inv_core, co_handleError].
  eapply tri_bind; [eapply Hdraw; eassumption|]. intros u2.
  eapply tri_bind; [apply inv_core, keeps_if; [apply co_popStyle|apply (keeps_ret _ co_refl)]|]. intros u3. apply IH.
Qed.
Lemma inv_useF fuel : forall attrs, inv (useF fuel attrs).
Proof.
  induction fuel as [|fuel IH]; intros attrs; cbn [useF]; [apply tri_nofuel; auto|].
  eapply tri_bind; [apply inv_core, (kp_foldM _ co_refl co_trans); intros; apply (kp_useAttr _ co_refl co_trans)|]. intros [[href x] y].
  eapply tri_bind; [apply inv_core, keeps_modify; intros; apply co_pc|]. intros u1.
  eapply (tri_deferred _ _ _ (fun _ => core c0) _ (fun _ => core c0)); [|intros; eapply co_trans; [eassumption|apply co_pc]..].
  apply tri_if; [apply tri_raise; auto|]. apply tri_if; [apply tri_raise; auto|].
  eapply tri_bind; [apply inv_core, (keeps_lift _ co_refl)|]. intros id.
  eapply (tri_bind _ _ _ (fun ds c => core c0 c /\ ds = sv_defs (c_svg c))); [apply tri_gets; auto|]. intros defs.
  destruct (mget id defs) as [ds|] eqn:Hg; [|apply tri_raise; intros s [H _]; exact H].
  intros c [Hc ->].
  assert (K : tame ds -> inv (useLoop (fun tag => if String.eqb tag "use" then Some (useF fuel) else drawFunc fuel tag) ds)).
  { intros Ht. apply inv_useLoop; [exact Ht|]. intros t df at' Hdf Hs. destruct (String.eqb t "use"); [injection Hdf as <-; apply IH|].
    apply inv_core. eapply draw_core; eassumption. }
  apply K; [|exact Hc]. rewrite (k_defs _ _ Hc) in Hg. eapply mget_forall; [exact H0|exact Hg].
Qed.
Lemma inv_drawFuncs fuel name df attrs : drawFuncs fuel name = Some df -> special name = false -> inv (df attrs).
Proof.
  unfold drawFuncs. destruct (String.eqb name "use"); intros H Hs; [injection H as <-; apply inv_useF|]. apply inv_core. eapply draw_core; eassumption.
Qed.
End Use.

(** ** The state between tokens
    [d], [g], [ft], [fd]: inside <defs>, a gradient, a title, a description; [mn]: outside masks;
    [T], [Dd]: titles and descriptions so far; [q]: paths and masks so far, if they are to be kept. *)
Definition app_last (T : list string) (s : string) : list string :=
  match rev T with [] => T | x :: r => rev r ++ [(x ++ s)%string] end.
Definition art := option (list (svgPath E) * list (string * svgMask E)).
Definition same_artq (q : art) (c : cursor) : Prop :=
  match q with Some (P, M) => sv_paths (c_svg c) = P /\ sv_masks (c_svg c) = M | None => True end.
Record st (u d g ft fd mn : bool) (T Dd : list string) (q : art) (c : cursor) : Prop := mkSt {
  st_defs : c_inDefs c = d; st_grad : c_inGrad c = g; st_path : pc_path (c_pc c) = [];
  st_tame : u = true -> tame (c_curDef c) /\ tame_defs c;
  st_title : c_inTitle c = ft; st_desc : c_inDesc c = fd; st_mask : mn = true -> c_mask c = None;
  st_titles : sv_titles (c_svg c) = T; st_descs : sv_descs (c_svg c) = Dd; st_art : same_artq q c }.
Definition lost (T Dd : list string) (q : art) (o : outcome unit) (c : cursor) : Prop :=
  match q with Some _ => sv_titles (c_svg c) = T /\ sv_descs (c_svg c) = Dd /\ same_artq q c | None => True end.
Definition qok (d ft fd mn : bool) (q : art) : Prop :=
  match q with Some _ => d = true /\ ft = false /\ fd = false /\ mn = true | None => True end.

Lemma st_lost u d g ft fd mn T Dd q o c : st u d g ft fd mn T Dd q c -> lost T Dd q o c.
Proof. intros []. unfold lost. destruct q; auto. Qed.
Lemma core_artq q c c' : core c c' -> same_artq q c -> same_artq q c'.
Proof. intros []. unfold same_artq. destruct q as [[P M]|]; [|auto]. intros [<- <-]. auto. Qed.
Lemma core_lost T Dd q o o' c c' : core c c' -> lost T Dd q o c -> lost T Dd q o' c'.
Proof.
  intros H. unfold lost. destruct q as [[P M]|]; [|auto]. intros (<- & <- & K). rewrite (k_titles _ _ H), (k_descs _ _ H). split; [reflexivity|]. split; [reflexivity|].
  eapply core_artq; eassumption.
Qed.
Lemma core_st u d g ft fd mn T Dd q c c' : core c c' -> pc_path (c_pc c') = [] -> st u d g ft fd mn T Dd q c -> st u d g ft fd mn T Dd q c'.
Proof.
  intros H Hp [H1 H2 H3 H4 H5 H6 H7 H8 H9 H10]. pose proof (core_artq q _ _ H H10). destruct H as [K1 K2 K3 K4 K5 K6 K7 K8 K9 K10 K11]. unfold tame_defs in *.
  constructor; unfold tame_defs; rewrite ?K1, ?K2, ?K3, ?K4, ?K5, ?K6, ?K7, ?K8, ?K9; auto.
Qed.
Lemma tri_core {A} u d g ft fd mn T Dd q (m : @C E A) : keeps core m -> keeps kpath m ->
  tri (st u d g ft fd mn T Dd q) m (fun _ => st u d g ft fd mn T Dd q) (lost T Dd q).
Proof.
  intros H1 H2 c Hc. specialize (H1 c). specialize (H2 c). unfold kpath in H2. pose proof (core_st u d g ft fd mn T Dd q _ _ H1) as K. rewrite H2 in K.
  specialize (K (st_path _ _ _ _ _ _ _ _ _ _ Hc) Hc).
  destruct (m c) as [c' [a|e| |]]; cbn [fst] in *; [exact K|eapply st_lost, K..].
Qed.

(** *** Start elements *)
Lemma kq_popStyle : keeps kpath popStyle.
Proof. intros c. unfold popStyle. destruct (c_stack c); reflexivity. Qed.
Lemma collect_nil (c : cursor) : pc_path (c_pc c) = [] -> collectPath c = (c, Ret tt).
Proof. intros H. unfold collectPath, gets, bind. rewrite H. reflexivity. Qed.
Lemma tri_start fuel name attrs u d g ft fd mn T Dd q (Q : unit -> cursor -> Prop) (W : outcome unit -> cursor -> Prop) :
  (forall o c, lost T Dd q o c -> W o c) ->
  tri (st u d g ft fd mn T Dd q) (readStartElement fuel name attrs) Q W ->
  tri (st u d g ft fd mn T Dd q) (stepToken fuel (TStart name attrs)) Q W.
Proof.
  intros HW H. cbn [stepToken]. eapply (tri_bind _ _ _ (fun _ => st u d g ft fd mn T Dd q)); [|intros []; exact H].
  eapply tri_weaken; [apply (tri_core u d g ft fd mn T Dd q _ (co_pushStyle attrs) (kq_pushStyle attrs))|auto|intros a s Hs; exact Hs|exact HW].
Qed.
(** inside definitions *)
Lemma start_in_defs fuel name attrs u ft fd mn T Dd q : is_gradient name = false -> (u = true -> special name = false) ->
  tri (st u true false ft fd mn T Dd q) (stepToken fuel (TStart name attrs)) (fun _ => st u true false ft fd mn T Dd q) (lost T Dd q).
Proof.
  intros Hg Hn. apply tri_start; [auto|]. intros c [H1 H2 H3 H4 H5 H6 H7 H8 H9 H10]. unfold readStartElement, bind, gets. cbv zeta.
  unfold is_gradient in Hg. rewrite orb_comm in Hg. rewrite Hg, H1, H2. cbn [orb negb andb]. unfold flushDefs, addDef, modify.
  destruct (negb (String.eqb (attrID attrs) "")); cbn [ret].
  - destruct (c_curDef c) as [|d l] eqn:Hc; cbn; constructor; cbn; auto.
    + intros Hu. destruct (H4 Hu) as [T1 T2]. split; [|exact T2]. apply Forall_app. rewrite Hc. split; [constructor|constructor; [cbn; auto|constructor]].
    + intros Hu. destruct (H4 Hu) as [T1 T2]. split; [constructor; [cbn; auto|constructor]|]. apply (mput_forall tame); [exact T1|exact T2].
  - cbn. constructor; cbn; auto. intros Hu. destruct (H4 Hu) as [T1 T2]. split; [|exact T2]. apply Forall_app. split; [exact T1|]. constructor; [cbn; auto|constructor].
Qed.
(** the start of a gradient *)
Definition core_g (c c' : cursor) : Prop := core (c_set_inGrad true c) (c_set_inGrad true c').
Lemma cg_refl c : core_g c c. Proof. apply co_refl. Qed.
Lemma cg_trans a b c : core_g a b -> core_g b c -> core_g a c. Proof. apply co_trans. Qed.
Lemma cg_linear attrs : keeps core_g (linearGradientF attrs).
Proof. apply (kp_linearGradientF _ cg_refl cg_trans); intros; constructor; reflexivity. Qed.
Lemma cg_radial attrs : keeps core_g (radialGradientF attrs).
Proof. apply (kp_radialGradientF _ cg_refl cg_trans); intros; constructor; reflexivity. Qed.
Definition same_g (c c' : cursor) : Prop := c_inGrad c' = c_inGrad c.
Lemma gradient_sets attrs m : m = linearGradientF (E := E) attrs \/ m = radialGradientF attrs ->
  tri (fun _ => True) m (fun _ c => c_inGrad c = true) (fun _ _ => True).
Proof.
  assert (R : forall c : cursor, same_g c c) by reflexivity.
  assert (Rt : forall a b c : cursor, same_g a b -> same_g b c -> same_g a c) by (unfold same_g; congruence).
  assert (Rp : forall p (c : cursor), same_g c (c_set_pc p c)) by reflexivity.
  assert (Ko : forall f, keeps same_g (onGrad (E := E) f)).
  { intros f c. unfold onGrad. destruct (c_grad c) as [p|]; [|reflexivity]. destruct (nth_error (c_gheap c) p); reflexivity. }
  assert (Kr : forall id, keeps same_g (registerGrad (E := E) id)) by (intros id c; unfold registerGrad; destruct (c_grad c); reflexivity).
  assert (Ka : forall a, keeps same_g (readGradAttr (E := E) a)).
  { intros a. unfold readGradAttr. repeat (apply (kp_parseTransform _ R Rt Rp) || apply keeps_if || apply (keeps_bind _ Rt) || (match goal with |- forall _, _ => intros ? end) || apply Ko || apply (keeps_ret _ R) || apply (keeps_raise _ R)
     || match goal with |- keeps _ (match ?x with _ => _ end) => destruct x end). }
  assert (Kt : keeps same_g (theGrad (E := E))) by (intros c; unfold theGrad; destruct (c_grad c); reflexivity).
  assert (Kn : keeps same_g (newGrad (E := E))) by (intros c; reflexivity).
  assert (K : forall A (n : @C E A), keeps same_g n -> tri (fun c : cursor => c_inGrad c = true) n (fun _ c => c_inGrad c = true) (fun _ _ => True)).
  { intros A n Hk. eapply tri_weaken; [apply (tri_keeps same_g n (fun c => c_inGrad c = true) Hk)|..]; auto. unfold same_g. congruence. }
  intros [->| ->]; [unfold linearGradientF|unfold radialGradientF];
    (eapply (tri_bind _ _ _ (fun _ c => c_inGrad c = true)); [apply tri_modify; auto|intros u0]); apply K;
    repeat (apply Ko || apply Kr || apply Ka || apply Kt || apply Kn || apply keeps_if || apply (keeps_bind _ Rt) || apply (keeps_foldM _ R Rt) || (match goal with |- forall _, _ => intros ? end)
     || apply (keeps_ret _ R) || apply (keeps_raise _ R) || apply (keeps_lift _ R) || apply (keeps_gets _ R) || apply (kp_cParseUnit _ R)
     || match goal with |- keeps _ (linAttr _ _) => unfold linAttr | |- keeps _ (radAttr _ _) => unfold radAttr
                   | |- keeps _ (let _ := _ in _) => cbv zeta | |- keeps _ (match ?x with _ => _ end) => destruct x end).
Qed.
Lemma grad_drawFuncs fuel name : is_gradient name = true ->
  exists df, drawFuncs (E := E) fuel name = Some df
    /\ (df = linearGradientF \/ df = radialGradientF).
Proof.
  unfold is_gradient. intros H. apply orb_true_iff in H. destruct H as [H|H]; apply String.eqb_eq in H; subst; eexists; (split; [reflexivity|auto]).
Qed.
Lemma start_gradient fuel name attrs u d ft fd mn T Dd q : is_gradient name = true ->
  tri (st u d false ft fd mn T Dd q) (stepToken fuel (TStart name attrs)) (fun _ => st u d true ft fd mn T Dd q) (lost T Dd q).
Proof.
  intros Hg. apply tri_start; [auto|]. intros c Hc. unfold readStartElement. erewrite bind_step by (unfold gets; reflexivity). cbv beta zeta.
  assert (Hg' : String.eqb name "radialGradient" || String.eqb name "linearGradient" = true) by (rewrite orb_comm; exact Hg).
  rewrite Hg'. cbn [orb negb]. rewrite andb_false_r. destruct (grad_drawFuncs fuel name Hg) as (df & -> & Hdf).
  assert (K1 : keeps core_g (df attrs)) by (destruct Hdf; subst df; [apply cg_linear|apply cg_radial]).
  assert (K2 : keeps kpath (df attrs)) by (destruct Hdf; subst df; [apply kq_linearGradientF|apply kq_radialGradientF]).
  assert (K3 : tri (fun _ => True) (df attrs) (fun _ c => c_inGrad c = true) (fun _ _ => True)) by (eapply gradient_sets; destruct Hdf; subst df; [left|right]; reflexivity).
  specialize (K1 c). specialize (K2 c). specialize (K3 c I). unfold kpath in K2. rewrite (st_path _ _ _ _ _ _ _ _ _ _ Hc) in K2.
  assert (K4 : forall c', core_g c c' -> pc_path (c_pc c') = [] -> c_inGrad c' = true -> st u d true ft fd mn T Dd q c').
  { intros c' H1 H2 H3. pose proof (core_artq q _ _ H1 (st_art _ _ _ _ _ _ _ _ _ _ Hc)) as HA. destruct H1 as [C1 C2 C3 C4 C5 C6 C7 C8 C9 C10 C11]; cbn in *. destruct Hc.
    unfold tame_defs in *. constructor; unfold tame_defs; rewrite ?C1, ?C2, ?C4, ?C5, ?C6, ?C7, ?C8, ?C9; auto. }
  assert (K5 : forall c' o, core_g c c' -> lost T Dd q o c').
  { intros c' o H1. pose proof (core_artq q _ _ H1 (st_art _ _ _ _ _ _ _ _ _ _ Hc)) as HA. unfold lost. destruct q; [|auto]. destruct H1 as [C1 C2 C3 C4 C5 C6 C7 C8 C9 C10 C11]; cbn in *.
    destruct Hc. rewrite C8, C9. auto. }
  unfold bind, attempt. destruct (df attrs c) as [c' [[]|e| |]]; cbn [fst] in *.
  - rewrite (collect_nil c' K2). apply K4; auto.
  - rewrite (collect_nil c' K2). apply K5; auto.
  - apply K5; auto.
  - apply K5; auto.
Qed.
(** outside definitions *)
Definition core_m (c c' : cursor) : Prop :=
  c_inTitle c' = c_inTitle c /\ c_inDesc c' = c_inDesc c /\ c_inGrad c' = c_inGrad c /\ c_inDefs c' = c_inDefs c
  /\ (c_mask c = None -> c_mask c' = None) /\ c_curDef c' = c_curDef c /\ sv_defs (c_svg c') = sv_defs (c_svg c)
  /\ sv_titles (c_svg c') = sv_titles (c_svg c) /\ sv_descs (c_svg c') = sv_descs (c_svg c).
Lemma collect_core_m : keeps core_m (collectPath (E := E)).
Proof.
  intros c. unfold collectPath, bind, gets. destruct (pc_path (c_pc c)) as [|o p]; [cbn; unfold core_m; auto 20|].
  unfold topStyle. destruct (c_inMask c).
  - destruct (c_mask c) as [m|] eqn:Hm; [destruct (c_stack c)|]; cbn; unfold core_m; cbn; rewrite ?Hm; repeat split; auto; discriminate.
  - destruct (c_stack c); cbn; unfold core_m; cbn; auto 20.
Qed.
Lemma collect_empties : tri (fun _ => True) (collectPath (E := E)) (fun _ c => pc_path (c_pc c) = []) (fun _ _ => True).
Proof.
  intros c _. unfold collectPath, bind, gets. destruct (pc_path (c_pc c)) as [|o p] eqn:Hp; [exact Hp|].
  unfold topStyle. destruct (c_inMask c).
  - destruct (c_mask c) as [m|]; [destruct (c_stack c)|]; cbn; auto.
  - destruct (c_stack c); cbn; auto.
Qed.
Lemma start_plain fuel name attrs u g ft fd mn T Dd : special name = false -> (name = "use"%string -> u = true) ->
  tri (st u false g ft fd mn T Dd None) (stepToken fuel (TStart name attrs)) (fun _ => st u false g ft fd mn T Dd None) (fun _ _ => True).
Proof.
  intros Hs Hu. apply tri_start; [auto|]. intros c Hc. unfold readStartElement. erewrite bind_step by (unfold gets; reflexivity). cbv beta zeta.
  rewrite (st_defs _ _ _ _ _ _ _ _ _ _ Hc). cbn [andb].
  destruct (drawFuncs fuel name) as [df|] eqn:Hdf.
  2:{ pose proof (tri_core u false g ft fd mn T Dd None _ (co_handleError (cannotProcess name)) (kq_handleError (cannotProcess name)) c Hc) as K.
      destruct (handleError (cannotProcess name) c) as [c' [[]|e| |]]; auto. }
  assert (K : core c (fst (df attrs c))).
  { unfold drawFuncs in Hdf. destruct (String.eqb_spec name "use") as [->|Hn].
    - injection Hdf as <-. destruct (st_tame _ _ _ _ _ _ _ _ _ _ Hc (Hu eq_refl)) as [_ Ht].
      pose proof (inv_useF c Ht fuel attrs c (co_refl c)) as K. destruct (useF fuel attrs c) as [c' [[]|e| |]]; exact K.
    - eapply draw_core; eassumption. }
  unfold bind, attempt. destruct (df attrs c) as [c1 [[]|e| |]]; cbn [fst] in *; auto.
  - pose proof (collect_core_m c1) as M. pose proof (collect_empties c1 I) as Em. destruct (collectPath c1) as [c2 [[]|e| |]]; auto. cbn [fst ret] in *.
    destruct Hc as [H1 H2 H3 H4 H5 H6 H7 H8 H9 H10]. destruct K as [K1 K2 K3 K4 K5 K6 K7 K8 K9 K10 K11]. destruct M as (M1 & M2 & M3 & M4 & M5 & M6 & M7 & M8 & M9).
    unfold tame_defs in *. constructor; unfold tame_defs; try congruence. 
    + rewrite M6, M7, K6, K7. exact H4.
    + intros Hmn. apply M5. rewrite K5. auto.
    + exact I.
  - destruct (collectPath c1) as [c2 [[]|e'| |]]; auto; exact I.
Qed.
(** title, desc, mask and defs *)
Lemma start_title fuel attrs u g ft fd mn T Dd :
  tri (st u false g ft fd mn T Dd None) (stepToken fuel (TStart "title" attrs)) (fun _ => st u false g true fd mn (T ++ [EmptyString]) Dd None) (fun _ _ => True).
Proof.
  apply tri_start; [auto|]. intros c [H1 H2 H3 H4 H5 H6 H7 H8 H9 H10]. unfold readStartElement, bind, gets. cbv zeta.
  rewrite H1. cbn [andb]. change (drawFuncs fuel "title") with (Some (titleF (E := E))). unfold attempt, titleF, bind, modify, onSvg, modify. cbv beta iota.
  rewrite collect_nil by exact H3. cbn. constructor; cbn; auto. now rewrite H8.
Qed.
Lemma start_desc fuel attrs u g ft fd mn T Dd :
  tri (st u false g ft fd mn T Dd None) (stepToken fuel (TStart "desc" attrs)) (fun _ => st u false g ft true mn T (Dd ++ [EmptyString]) None) (fun _ _ => True).
Proof.
  apply tri_start; [auto|]. intros c [H1 H2 H3 H4 H5 H6 H7 H8 H9 H10]. unfold readStartElement, bind, gets. cbv zeta.
  rewrite H1. cbn [andb]. change (drawFuncs fuel "desc") with (Some (descF (E := E))). unfold attempt, descF, bind, modify, onSvg, modify. cbv beta iota.
  rewrite collect_nil by exact H3. cbn. constructor; cbn; auto. now rewrite H9.
Qed.
Lemma start_defs fuel attrs u g ft fd mn T Dd q :
  tri (st u false g ft fd mn T Dd q) (stepToken fuel (TStart "defs" attrs)) (fun _ => st u true g ft fd mn T Dd q) (lost T Dd q).
Proof.
  apply tri_start; [auto|]. intros c [H1 H2 H3 H4 H5 H6 H7 H8 H9 H10]. unfold readStartElement, bind, gets. cbv zeta.
  rewrite H1. cbn [andb]. change (drawFuncs fuel "defs") with (Some (defsF (E := E))). unfold attempt, defsF, bind, modify, onSvg, modify. cbv beta iota.
  rewrite collect_nil by exact H3. cbn. constructor; cbn; auto.
Qed.
Definition core_k (c c' : cursor) : Prop := core (c_set_mask None c) (c_set_mask None c').
Lemma start_mask fuel attrs u g ft fd mn T Dd :
  tri (st u false g ft fd mn T Dd None) (stepToken fuel (TStart "mask" attrs)) (fun _ => st u false g ft fd false T Dd None) (fun _ _ => True).
Proof.
  apply tri_start; [auto|]. intros c Hc. unfold readStartElement. erewrite bind_step by (unfold gets; reflexivity). cbv beta zeta.
  rewrite (st_defs _ _ _ _ _ _ _ _ _ _ Hc). cbn [andb]. change (drawFuncs fuel "mask") with (Some (maskF (E := E))).
  assert (K : core_k c (fst (maskF attrs c))).
  { apply (kp_maskF core_k); intros; try (constructor; reflexivity). eapply co_trans; eassumption. }
  assert (K2 : kpath c (fst (maskF attrs c))).
  { apply (kp_maskF kpath); intros; try reflexivity. eapply kq_trans; eassumption. }
  unfold kpath in K2. rewrite (st_path _ _ _ _ _ _ _ _ _ _ Hc) in K2.
  unfold bind, attempt. destruct (maskF attrs c) as [c1 [[]|e| |]]; cbn [fst] in *; auto.
  - rewrite (collect_nil c1 K2). cbn. destruct K as [C1 C2 C3 C4 C5 C6 C7 C8 C9 C10 C11]; cbn in *. destruct Hc.
    unfold tame_defs in *. constructor; unfold tame_defs; rewrite ?C1, ?C2, ?C3, ?C4, ?C6, ?C7, ?C8, ?C9; auto. discriminate.
  - rewrite (collect_nil c1 K2). exact I.
Qed.
(** stops *)
Lemma start_stop fuel attrs u d ft fd mn T Dd q :
  tri (st u d true ft fd mn T Dd q) (stepToken fuel (TStart "stop" attrs)) (fun _ => st u d true ft fd mn T Dd q) (lost T Dd q).
Proof.
  apply tri_start; [auto|]. intros c Hc. unfold readStartElement. erewrite bind_step by (unfold gets; reflexivity). cbv beta zeta.
  rewrite (st_grad _ _ _ _ _ _ _ _ _ _ Hc). rewrite orb_true_r, andb_false_r. change (drawFuncs fuel "stop") with (Some (stopF (E := E))).
  pose proof (tri_core u d true ft fd mn T Dd q _ (co_stopF attrs) (kq_stopF attrs) c Hc) as K. pose proof (co_stopF attrs c) as K1. pose proof (kq_stopF attrs c) as K2.
  unfold kpath in K2. rewrite (st_path _ _ _ _ _ _ _ _ _ _ Hc) in K2.
  unfold bind, attempt. destruct (stopF attrs c) as [c1 [[]|e| |]]; cbn [fst] in *; auto.
  - rewrite (collect_nil c1 K2). exact K.
  - rewrite (collect_nil c1 K2). exact K.
Qed.

(** *** End elements and character data *)
Definition off (name t : string) (b : bool) : bool := if String.eqb name t then false else b.
Lemma end_tri fuel name u d g ft fd mn T Dd q : (q <> None -> mn = true) ->
  tri (st u d g ft fd mn T Dd q) (stepToken fuel (TEnd name))
    (fun _ => st u (off name "defs" d) (if is_gradient name then false else g) (off name "title" ft) (off name "desc" fd)
                 (if String.eqb name "mask" then true else mn) T Dd q) (lost T Dd q).
Proof.
  intros Hq. cbn [stepToken]. rewrite endElement_rest. eapply tri_bind; [apply (tri_core u d g ft fd mn T Dd q _ co_popStyle kq_popStyle)|].
  intros u0 c [H1 H2 H3 H4 H5 H6 H7 H8 H9 H10]. unfold endRest, off, is_gradient.
  destruct (String.eqb_spec name "g") as [->|N1].
  { cbn [String.eqb Ascii.eqb Bool.eqb orb]. unfold bind, gets. rewrite H1. destruct d; unfold addDef, modify, ret; cbn; constructor; cbn; auto.
    intros Hu. destruct (H4 Hu) as [T1 T2]. split; [|exact T2]. apply Forall_app. split; [exact T1|]. constructor; [reflexivity|constructor]. }
  destruct (String.eqb_spec name "mask") as [->|N2].
  { cbn [String.eqb Ascii.eqb Bool.eqb orb]. unfold bind, gets. destruct (c_mask c) as [m|] eqn:Hm; unfold onSvg, modify, ret; cbn; constructor; cbn; auto.
    unfold same_artq in *. destruct q as [[P Ms]|]; [|auto]. specialize (H7 (Hq ltac:(discriminate))). discriminate. }
  destruct (String.eqb_spec name "title") as [->|N3]. { cbn [String.eqb Ascii.eqb Bool.eqb orb]. unfold modify. constructor; cbn; auto. }
  destruct (String.eqb_spec name "desc") as [->|N4]. { cbn [String.eqb Ascii.eqb Bool.eqb orb]. unfold modify. constructor; cbn; auto. }
  destruct (String.eqb_spec name "defs") as [->|N5].
  { cbn [String.eqb Ascii.eqb Bool.eqb orb]. unfold flushDefs, bind, modify. destruct (c_curDef c) as [|x l] eqn:Hc; constructor; cbn; auto.
    - rewrite Hc. exact H4.
    - intros Hu. destruct (H4 Hu) as [T1 T2]. split; [constructor|]. apply (mput_forall tame); [exact T1|exact T2]. }
  rewrite orb_comm. destruct (String.eqb name "linearGradient" || String.eqb name "radialGradient"); unfold modify, ret; constructor; cbn; auto.
Qed.
Lemma end_to fuel name u d g ft fd mn T Dd q (Q : cursor -> Prop) (W : outcome unit -> cursor -> Prop) : (q <> None -> mn = true) ->
  (forall c, st u (off name "defs" d) (if is_gradient name then false else g) (off name "title" ft) (off name "desc" fd)
                 (if String.eqb name "mask" then true else mn) T Dd q c -> Q c) ->
  (forall o c, lost T Dd q o c -> W o c) -> tri (st u d g ft fd mn T Dd q) (stepToken fuel (TEnd name)) (fun _ => Q) W.
Proof. intros H1 H2 H3. eapply tri_weaken; [apply end_tri, H1|intros s H; exact H|intros a; apply H2|exact H3]. Qed.
Definition text_grow (on : bool) (T : list string) (s : string) : list string := if on then app_last T s else T.
Lemma appendLast_ok T s T' : appendLast T s = Ret T' -> T' = app_last T s.
Proof. unfold appendLast, app_last. destruct (rev T); [discriminate|]. congruence. Qed.
Lemma chars_tri fuel s u d g ft fd mn T Dd q : qok d ft fd mn q ->
  tri (st u d g ft fd mn T Dd q) (stepToken fuel (TChar s)) (fun _ => st u d g ft fd mn (text_grow ft T s) (text_grow fd Dd s) q) (lost T Dd q).
Proof.
  intros Hq c Hc. cbn [stepToken]. unfold charData, bind, gets. pose proof Hc as [H1 H2 H3 H4 H5 H6 H7 H8 H9 H10].
  rewrite H5, H6, H8, H9.
  assert (W : ft || fd = true -> forall o x, lost T Dd q o x).
  { intros Hor o x. unfold lost. destruct q; [|auto]. destruct Hq as (_ & -> & -> & _). discriminate. }
  destruct ft, fd; cbn [ret lift].
  - unfold lift. destruct (appendLast T s) as [T1|e| |] eqn:A1; try (apply W; reflexivity). unfold onSvg, modify. destruct (appendLast Dd s) as [D1|e| |] eqn:A2; try (apply W; reflexivity).
    cbn. constructor; cbn; auto using appendLast_ok.
  - unfold lift. destruct (appendLast T s) as [T1|e| |] eqn:A1; try (apply W; reflexivity). unfold onSvg, modify. cbn. constructor; cbn; auto using appendLast_ok.
  - unfold lift. destruct (appendLast Dd s) as [D1|e| |] eqn:A2; try (apply W; reflexivity). unfold onSvg, modify. cbn. constructor; cbn; auto using appendLast_ok.
  - exact Hc.
Qed.

(** ** Trees *)
Definition grow (on d : bool) (t : string) (T : list string) (n : node) : list string :=
  if on then app_last T (node_text n) else if d then T else T ++ notes t n.
Definition grows_by (on d : bool) (t : string) (T : list string) (ns : list node) : list string :=
  if on then app_last T (nodes_text ns) else if d then T else T ++ flat_map (notes t) ns.
Lemma app_last_app T a b : app_last (app_last T a) b = app_last T (a ++ b).
Proof.
  unfold app_last at 2 3. destruct (rev T) as [|x r] eqn:H; [unfold app_last; now rewrite H|].
  unfold app_last. rewrite rev_app_distr, rev_involutive. cbn [rev app]. now rewrite sapp_assoc.
Qed.
Lemma app_last_nil T : app_last T EmptyString = T.
Proof.
  unfold app_last. destruct (rev T) as [|x r] eqn:H; [reflexivity|]. rewrite sapp_nil_r. rewrite <- (rev_involutive T), H. reflexivity.
Qed.
Lemma grows_nil on d t T : grows_by on d t T [] = T.
Proof. unfold grows_by. cbn. destruct on; [apply app_last_nil|]. destruct d; [reflexivity|apply app_nil_r]. Qed.
Lemma grows_cons on d t T n ns : grows_by on d t (grow on d t T n) ns = grows_by on d t T (n :: ns).
Proof.
  unfold grows_by, grow. destruct on; [apply app_last_app|]. destruct d; [reflexivity|]. cbn [flat_map]. now rewrite app_assoc.
Qed.
(** no note inside a note *)
Definition flat_ok (on d : bool) (t : string) (n : node) : bool := if on then negb (mentions t n) else d || flat_in t n.
Lemma flat_kids on d d' t name attrs kids k : flat_ok on d t (Elem name attrs kids) = true -> name <> t \/ on = true -> (d = true -> d' = true) ->
  List.In k kids -> flat_ok on d' t k = true.
Proof.
  unfold flat_ok. cbn [mentions flat_in]. intros H Hn Hd Hk. destruct on.
  - apply negb_true_iff in H. apply orb_false_iff in H. destruct H as [_ H]. apply negb_true_iff.
    apply not_true_iff_false. intros Hm. apply not_true_iff_false in H. apply H. apply existsb_exists. eauto.
  - destruct Hn as [Hn|Hn]; [|discriminate]. apply orb_true_iff in H. destruct H as [H|H]; [rewrite (Hd H); reflexivity|].
    apply String.eqb_neq in Hn. rewrite Hn in H. rewrite forallb_forall in H. rewrite (H k Hk). apply orb_true_r.
Qed.
Lemma flat_note on d t attrs kids k : flat_ok on d t (Elem t attrs kids) = true -> d = false -> List.In k kids -> on = false /\ flat_ok true d t k = true.
Proof.
  unfold flat_ok. cbn [mentions flat_in]. rewrite String.eqb_refl. intros H -> Hk. destruct on; [discriminate|]. split; [reflexivity|].
  cbn [orb] in H. apply negb_true_iff in H. apply negb_true_iff. apply not_true_iff_false. intros Hm. apply not_true_iff_false in H. apply H. apply existsb_exists. eauto.
Qed.
Lemma flat_note_off on t attrs kids : flat_ok on false t (Elem t attrs kids) = true -> on = false.
Proof. unfold flat_ok. cbn [mentions]. rewrite String.eqb_refl. destruct on; [discriminate|reflexivity]. Qed.
Lemma lost_grow d ft fd mn q t1 t2 T Dd n o c : qok d ft fd mn q -> lost (grow ft d t1 T n) (grow fd d t2 Dd n) q o c -> lost T Dd q o c.
Proof. unfold qok, lost. destruct q; [|auto]. intros (-> & -> & -> & _). exact (fun H => H). Qed.
Lemma lost_grows d ft fd mn q t1 t2 T Dd n o c : qok d ft fd mn q -> lost (grows_by ft d t1 T n) (grows_by fd d t2 Dd n) q o c -> lost T Dd q o c.
Proof. unfold qok, lost. destruct q; [|auto]. intros (-> & -> & -> & _). exact (fun H => H). Qed.
Lemma elem_tri fuel name attrs kids (P P1 P2 Q : cursor -> Prop) (W : outcome unit -> cursor -> Prop) :
  tri P (stepToken fuel (TStart name attrs)) (fun _ => P1) W -> tri P1 (mapM (stepToken fuel) (flat_map tokens kids)) (fun _ => P2) W ->
  tri P2 (stepToken fuel (TEnd name)) (fun _ => Q) W -> tri P (mapM (stepToken fuel) (tokens (Elem name attrs kids))) (fun _ => Q) W.
Proof.
  intros H1 H2 H3. cbn [tokens mapM]. eapply tri_bind; [exact H1|]. intros [] c Hc. rewrite mapM_app. revert c Hc.
  apply (tri_bind P1 _ _ (fun _ => P2)); [exact H2|]. intros []. cbn [mapM]. eapply tri_bind; [exact H3|]. intros []. apply tri_ret. auto.
Qed.
Lemma nodes_tri_gen fuel (good : node -> bool) u d g ft fd mn q ns : qok d ft fd mn q -> forallb good ns = true ->
  Forall (fun n => good n = true -> forall T Dd,
    tri (st u d g ft fd mn T Dd q) (mapM (stepToken fuel) (tokens n)) (fun _ => st u d g ft fd mn (grow ft d "title" T n) (grow fd d "desc" Dd n) q) (lost T Dd q)) ns ->
  forall T Dd, tri (st u d g ft fd mn T Dd q) (mapM (stepToken fuel) (flat_map tokens ns))
    (fun _ => st u d g ft fd mn (grows_by ft d "title" T ns) (grows_by fd d "desc" Dd ns) q) (lost T Dd q).
Proof.
  intros Hq Hg H. induction H as [|n ns Hn Hns IH]; intros T Dd.
  - cbn [flat_map mapM]. apply tri_ret. intros c. now rewrite !grows_nil.
  - cbn [forallb] in Hg. apply andb_true_iff in Hg. destruct Hg as [Hg1 Hg2].
    intros c Hc. cbn [flat_map]. rewrite mapM_app. revert c Hc.
    apply (tri_bind _ _ _ (fun _ => st u d g ft fd mn (grow ft d "title" T n) (grow fd d "desc" Dd n) q)); [apply Hn, Hg1|]. intros [].
    eapply tri_weaken; [apply (IH Hg2 (grow ft d "title" T n) (grow fd d "desc" Dd n))|auto| |].
    + intros a c. cbv beta. now rewrite !grows_cons.
    + intros o c. apply (lost_grow _ _ _ _ _ _ _ _ _ _ _ _ Hq).
Qed.
Lemma chars_node fuel s u d g ft fd mn T Dd q : qok d ft fd mn q ->
  tri (st u d g ft fd mn T Dd q) (mapM (stepToken fuel) (tokens (Chars s))) (fun _ => st u d g ft fd mn (grow ft d "title" T (Chars s)) (grow fd d "desc" Dd (Chars s)) q) (lost T Dd q).
Proof.
  intros Hq. cbn [tokens mapM]. eapply tri_bind; [apply (chars_tri fuel s u d g ft fd mn T Dd q Hq)|]. intros []. apply tri_ret. intros c.
  unfold text_grow, grow. cbn [node_text notes]. rewrite !app_nil_r. destruct ft, fd, d; auto.
Qed.
Lemma misc_node fuel u d g ft fd mn T Dd q :
  tri (st u d g ft fd mn T Dd q) (mapM (stepToken fuel) (tokens Misc)) (fun _ => st u d g ft fd mn (grow ft d "title" T Misc) (grow fd d "desc" Dd Misc) q) (lost T Dd q).
Proof.
  cbn [tokens mapM stepToken]. eapply (tri_bind _ _ _ (fun _ => st u d g ft fd mn T Dd q)); [apply tri_ret; auto|]. intros []. apply tri_ret. intros c.
  unfold grow. cbn [node_text notes]. rewrite !app_nil_r, !app_last_nil. destruct ft, fd, d; auto.
Qed.
Lemma st_mn u d g ft fd mn mn' T Dd q c : (mn' = true -> mn = true) -> st u d g ft fd mn T Dd q c -> st u d g ft fd mn' T Dd q c.
Proof. intros H []. constructor; auto. Qed.
Lemma qok_mn d ft fd mn q : qok d ft fd mn q -> q <> None -> mn = true.
Proof. unfold qok. destruct q; [intros (_ & _ & _ & H); auto|congruence]. Qed.

(** stops *)
Lemma no_elements_tri fuel u d g ft fd mn q ns : qok d ft fd mn q -> no_elements ns = true -> forall T Dd,
  tri (st u d g ft fd mn T Dd q) (mapM (stepToken fuel) (flat_map tokens ns))
    (fun _ => st u d g ft fd mn (grows_by ft d "title" T ns) (grows_by fd d "desc" Dd ns) q) (lost T Dd q).
Proof.
  intros Hq Hn. eapply nodes_tri_gen; [exact Hq|exact Hn|]. apply Forall_forall. intros [name attrs kids|s|] _ Hg T Dd; [discriminate|apply chars_node, Hq|apply misc_node].
Qed.
Lemma stops_tri fuel u d ft fd mn q ns : qok d ft fd mn q -> stops_only ns = true -> forall T Dd,
  tri (st u d true ft fd mn T Dd q) (mapM (stepToken fuel) (flat_map tokens ns))
    (fun _ => st u d true ft fd mn (grows_by ft d "title" T ns) (grows_by fd d "desc" Dd ns) q) (lost T Dd q).
Proof.
  intros Hq Hn. eapply nodes_tri_gen; [exact Hq|exact Hn|]. apply Forall_forall. intros [name attrs kids|s|] _ Hg T Dd; [|apply chars_node, Hq|apply misc_node].
  apply andb_true_iff in Hg. destruct Hg as [Hs Hk]. apply String.eqb_eq in Hs. subst name.
  eapply elem_tri; [apply start_stop|apply (no_elements_tri fuel u d true ft fd mn q kids Hq Hk)|].
  apply end_to; [apply (qok_mn _ _ _ _ _ Hq)|..].
  - intros c. unfold off, grow. cbn [String.eqb Ascii.eqb Bool.eqb is_gradient orb]. exact (fun H => H).
  - intros o c. apply (lost_grows _ _ _ _ _ _ _ _ _ _ _ _ Hq).
Qed.
Lemma stops_notes t ns : stops_only ns = true -> t <> "stop"%string -> flat_map (notes t) ns = [].
Proof.
  intros H Ht. induction ns as [|n ns IH]; [reflexivity|]. cbn in H. apply andb_true_iff in H. destruct H as [H1 H2]. cbn [flat_map]. rewrite (IH H2), app_nil_r.
  destruct n as [name attrs kids|s|]; try reflexivity. apply andb_true_iff in H1. destruct H1 as [Hs Hk]. apply String.eqb_eq in Hs. subst name. cbn [notes].
  destruct (String.eqb_spec "stop" t); [congruence|]. cbn. clear -Hk. induction kids as [|k kids IH]; [reflexivity|]. cbn in Hk. destruct k; [discriminate|cbn; auto..].
Qed.

Lemma app_last_snoc T x s : app_last (T ++ [x]) s = T ++ [(x ++ s)%string].
Proof. unfold app_last. rewrite rev_app_distr. cbn. now rewrite rev_involutive. Qed.
Lemma forallb_mono {A} (f g : A -> bool) l : (forall a, List.In a l -> f a = true -> g a = true) -> forallb f l = true -> forallb g l = true.
Proof. rewrite !forallb_forall. auto. Qed.

Theorem node_tri fuel u n : forall d ft fd mn T Dd q, tidy u d n = true -> flat_ok ft d "title" n = true -> flat_ok fd d "desc" n = true -> qok d ft fd mn q ->
  tri (st u d false ft fd mn T Dd q) (mapM (stepToken fuel) (tokens n))
    (fun _ => st u d false ft fd mn (grow ft d "title" T n) (grow fd d "desc" Dd n) q) (lost T Dd q).
Proof.
  induction n as [name attrs kids IH|s|] using node_ind'; intros d ft fd mn T Dd q Ht Hft Hfd Hq; [|apply chars_node, Hq|apply misc_node].
  (* the children, given conditions that hold for each of them *)
  assert (HK : forall d' ft' fd' mn' q', qok d' ft' fd' mn' q' ->
     (forall k, List.In k kids -> tidy u d' k = true /\ flat_ok ft' d' "title" k = true /\ flat_ok fd' d' "desc" k = true) -> forall T Dd,
     tri (st u d' false ft' fd' mn' T Dd q') (mapM (stepToken fuel) (flat_map tokens kids))
       (fun _ => st u d' false ft' fd' mn' (grows_by ft' d' "title" T kids) (grows_by fd' d' "desc" Dd kids) q') (lost T Dd q')).
  { intros d' ft' fd' mn' q' Hq' Hk. apply (nodes_tri_gen fuel (fun _ => true)); [exact Hq'|apply forallb_forall; auto|].
    rewrite Forall_forall in IH |- *. intros k Hin _ T0 D0. destruct (Hk k Hin) as (K1 & K2 & K3). apply IH; assumption. }
  cbn [tidy] in Ht. destruct (is_gradient name) eqn:Hg.
  { eapply elem_tri; [apply start_gradient, Hg|apply (stops_tri fuel u d ft fd mn q kids Hq Ht)|].
    apply end_to; [apply (qok_mn _ _ _ _ _ Hq)|..].
    - intros c. rewrite Hg. unfold off, grow, grows_by. cbn [notes node_text]. change (fold_right _ "" kids) with (nodes_text kids).
      rewrite (stops_notes "title" kids Ht), (stops_notes "desc" kids Ht) by discriminate.
      unfold is_gradient in Hg. apply orb_true_iff in Hg. destruct Hg as [Hg|Hg]; apply String.eqb_eq in Hg; subst name; cbn [String.eqb Ascii.eqb Bool.eqb]; exact (fun H => H).
    - intros o c. apply (lost_grows _ _ _ _ _ _ _ _ _ _ _ _ Hq). }
  destruct d.
  - (* inside definitions *)
    apply andb_true_iff in Ht. destruct Ht as [Ht Hkids]. apply andb_true_iff in Ht. destruct Ht as [Hnd Hpl]. rewrite forallb_forall in Hkids.
    assert (Hkk : forall k, List.In k kids -> tidy u true k = true /\ flat_ok ft true "title" k = true /\ flat_ok fd true "desc" k = true).
    { intros k Hk. split; [auto|]. split.
      - destruct ft; [|reflexivity]. eapply flat_kids; [exact Hft|right; reflexivity|auto|exact Hk].
      - destruct fd; [|reflexivity]. eapply flat_kids; [exact Hfd|right; reflexivity|auto|exact Hk]. }
    eapply elem_tri; [apply start_in_defs; [exact Hg|]|apply (HK true ft fd mn q Hq Hkk)|].
    + intros ->. cbn [negb orb] in Hpl. unfold plain_tag in Hpl. apply negb_true_iff in Hpl. unfold special. cbn [existsb] in *. rewrite !orb_false_iff in *.
      apply negb_true_iff in Hnd. unfold is_gradient in Hg. rewrite orb_false_iff in Hg. tauto.
    + apply end_to; [apply (qok_mn _ _ _ _ _ Hq)|..].
      * intros c H. rewrite Hg in H. apply negb_true_iff in Hnd. unfold off in H. rewrite Hnd in H.
        assert (E1 : (if String.eqb name "title" then false else ft) = ft).
        { destruct (String.eqb_spec name "title") as [->|]; [|reflexivity]. destruct ft; [|reflexivity]. discriminate Hft. }
        assert (E2 : (if String.eqb name "desc" then false else fd) = fd).
        { destruct (String.eqb_spec name "desc") as [->|]; [|reflexivity]. destruct fd; [|reflexivity]. discriminate Hfd. }
        rewrite E1, E2 in H. eapply st_mn; [|exact H]. intros ->. destruct (String.eqb name "mask"); reflexivity.
      * intros o c. apply (lost_grows _ _ _ _ _ _ _ _ _ _ _ _ Hq).
  - (* outside *)
    destruct q as [x|]; [destruct Hq; discriminate|]. clear Hq. apply andb_true_iff in Ht. destruct Ht as [Hu Hkids]. rewrite forallb_forall in Hkids.
    assert (Qn : forall d ft fd mn, qok d ft fd mn None) by (intros; exact I).
    assert (Lt : forall T Dd (o : outcome unit) c, lost T Dd None o c) by (intros; exact I).
    assert (TW : forall A (P : cursor -> Prop) (m : @C E A) Q T Dd W, tri P m Q W -> tri P m Q (lost T Dd None)).
    { intros A P m Q T0 D0 W H. eapply tri_weaken; [exact H|auto|auto|auto]. }
    destruct (String.eqb_spec name "title") as [->|N1].
    { pose proof (flat_note_off _ _ _ _ Hft) as ->.
      assert (Hkk : forall k, List.In k kids -> tidy u false k = true /\ flat_ok true false "title" k = true /\ flat_ok fd false "desc" k = true).
      { intros k Hk. split; [exact (Hkids k Hk)|]. split; [eapply flat_note; [exact Hft|reflexivity|exact Hk]|].
        eapply flat_kids; [exact Hfd|left; discriminate|discriminate|exact Hk]. }
      eapply elem_tri; [eapply TW, start_title|eapply TW, (HK false true fd mn None (Qn _ _ _ _) Hkk)|].
      apply end_to; [congruence| |auto].
      intros c. unfold off, grow, grows_by. cbn [String.eqb Ascii.eqb Bool.eqb is_gradient orb notes]. rewrite app_last_snoc. exact (fun H => H). }
    destruct (String.eqb_spec name "desc") as [->|N2].
    { pose proof (flat_note_off _ _ _ _ Hfd) as ->.
      assert (Hkk : forall k, List.In k kids -> tidy u false k = true /\ flat_ok ft false "title" k = true /\ flat_ok true false "desc" k = true).
      { intros k Hk. split; [exact (Hkids k Hk)|]. split; [eapply flat_kids; [exact Hft|left; discriminate|discriminate|exact Hk]|].
        eapply flat_note; [exact Hfd|reflexivity|exact Hk]. }
      eapply elem_tri; [eapply TW, start_desc|eapply TW, (HK false ft true mn None (Qn _ _ _ _) Hkk)|].
      apply end_to; [congruence| |auto].
      intros c. unfold off, grow, grows_by. cbn [String.eqb Ascii.eqb Bool.eqb is_gradient orb notes]. rewrite app_last_snoc. exact (fun H => H). }
    destruct (String.eqb_spec name "defs") as [->|N3].
    { assert (Hkk : forall k, List.In k kids -> tidy u true k = true /\ flat_ok ft true "title" k = true /\ flat_ok fd true "desc" k = true).
      { intros k Hk. split; [exact (Hkids k Hk)|]. split; [eapply flat_kids; [exact Hft|left; discriminate|auto|exact Hk]|].
        eapply flat_kids; [exact Hfd|left; discriminate|auto|exact Hk]. }
      eapply elem_tri; [eapply TW, start_defs|eapply TW, (HK true ft fd mn None (Qn _ _ _ _) Hkk)|].
      apply end_to; [congruence| |auto].
      intros c. unfold off, grow, grows_by. cbn [String.eqb Ascii.eqb Bool.eqb is_gradient orb notes]. rewrite !app_nil_r. exact (fun H => H). }
    assert (Hkk : forall k, List.In k kids -> tidy u false k = true /\ flat_ok ft false "title" k = true /\ flat_ok fd false "desc" k = true).
    { intros k Hk. split; [exact (Hkids k Hk)|].
      split; [eapply flat_kids; [exact Hft|left; exact N1|auto|exact Hk]|eapply flat_kids; [exact Hfd|left; exact N2|auto|exact Hk]]. }
    assert (Hgrow : forall on t T0, name <> t -> grow on false t T0 (Elem name attrs kids) = grows_by on false t T0 kids).
    { intros on t T0 Hn. unfold grow, grows_by. cbn [notes]. apply String.eqb_neq in Hn, N3. rewrite Hn, N3. reflexivity. }
    rewrite !Hgrow by assumption.
    apply String.eqb_neq in N1, N2, N3.
    destruct (String.eqb_spec name "mask") as [->|N4].
    { eapply elem_tri; [eapply TW, start_mask|eapply TW, (HK false ft fd false None (Qn _ _ _ _) Hkk)|].
      apply end_to; [congruence| |auto].
      intros c. unfold off. cbn [String.eqb Ascii.eqb Bool.eqb is_gradient orb]. apply st_mn. auto. }
    apply String.eqb_neq in N4.
    eapply elem_tri; [eapply TW, start_plain|eapply TW, (HK false ft fd mn None (Qn _ _ _ _) Hkk)|].
    + unfold special. cbn [existsb]. rewrite N1, N2, N3, N4. unfold is_gradient in Hg. rewrite orb_false_iff in Hg. destruct Hg as [-> ->]. reflexivity.
    + intros ->. destruct u; [reflexivity|discriminate].
    + apply end_to; [congruence| |auto].
      intros c. unfold off. rewrite N1, N2, N3, N4, Hg. exact (fun H => H).
Qed.

(** ** Documents *)
Lemma nodes_tri fuel u ns mn T Dd : tidy_doc u ns = true ->
  tri (st u false false false false mn T Dd None) (mapM (stepToken fuel) (flat_map tokens ns))
    (fun _ => st u false false false false mn (T ++ flat_map (notes "title") ns) (Dd ++ flat_map (notes "desc") ns) None) (fun _ _ => True).
Proof.
  intros H. eapply tri_weaken; [apply (nodes_tri_gen fuel (fun n => tidy u false n && flat_in "title" n && flat_in "desc" n) u false false false false mn None ns I H)|..].
  - apply Forall_forall. intros n _ Hn T0 D0. rewrite !andb_true_iff in Hn. destruct Hn as [[H1 H2] H3]. apply node_tri; unfold flat_ok; cbn [orb]; auto. exact I.
  - intros s Hs; exact Hs.
  - intros a s Hs; exact Hs.
  - auto.
Qed.
Lemma st0 u mode : st u false false false false true [] [] None (cursor0 (E := E) mode).
Proof. constructor; cbn; auto. intros _. split; constructor. Qed.
Theorem notes_parsed fuel mode u ns (s : svg E) log : tidy_doc u ns = true -> parse fuel mode (flat_map tokens ns) TermEOF = PSvg s None log ->
  sv_titles s = flat_map (notes "title") ns /\ sv_descs s = flat_map (notes "desc") ns.
Proof.
  intros Ht. pose proof (nodes_tri fuel u ns true [] [] Ht (cursor0 mode) (st0 u mode)) as K. unfold parse.
  destruct (mapM (stepToken fuel) (flat_map tokens ns) (cursor0 mode)) as [c [[]|e| |]]; try discriminate.
  destruct (seenTag _); [|discriminate]. intros H. injection H as <- <-. destruct K. cbn in *. auto.
Qed.
Lemma tidy_at_st fuel mode u pre : tidy_at u pre -> forall c, mapM (stepToken fuel) pre (cursor0 (E := E) mode) = (c, Ret tt) ->
  exists T Dd, st u false false false false true T Dd None c.
Proof.
  induction 1 as [|pre ns Hp IH Hn|pre name attrs Hp IH H1 H2 H3 H4]; intros c Hc.
  - injection Hc as <-. exists [], []. apply st0.
  - rewrite mapM_app in Hc. apply seqC in Hc. destruct Hc as (c1 & [] & Hc1 & Hc). destruct (IH c1 Hc1) as (T & Dd & Hst).
    pose proof (nodes_tri fuel u ns true T Dd Hn c1 Hst) as K. rewrite Hc in K. eauto.
  - rewrite mapM_app in Hc. apply seqC in Hc. destruct Hc as (c1 & [] & Hc1 & Hc). destruct (IH c1 Hc1) as (T & Dd & Hst).
    exists T, Dd. cbn [mapM] in Hc. apply seqC in Hc. destruct Hc as (c2 & [] & Hc2 & Hc). injection Hc as <-.
    pose proof (start_plain fuel name attrs u false false false true T Dd) as K.
    assert (K' : st u false false false false true T Dd None c2).
    { assert (Hs : special name = false).
      { unfold plain_tag in H1. apply negb_true_iff in H1. unfold special. cbn [existsb] in *. rewrite !orb_false_iff in *. apply String.eqb_neq in H2.
        unfold is_gradient in H3. rewrite orb_false_iff in H3. tauto. }
      assert (Hu : name = "use"%string -> u = true) by (intros ->; destruct u; [reflexivity|discriminate]).
      specialize (K Hs Hu c1 Hst). rewrite Hc2 in K. exact K. }
    exact K'.
Qed.
Lemma defs_keep fuel u attrs kids T Dd P Ms (c : cursor) : forallb (tidy u true) kids = true ->
  st u false false false false true T Dd (Some (P, Ms)) c ->
  let r := mapM (stepToken fuel) (tokens (Elem "defs" attrs kids)) c in
  lost T Dd (Some (P, Ms)) (Ret tt) (fst r) /\ (snd r = Ret tt -> st u false false false false true T Dd (Some (P, Ms)) (fst r)).
Proof.
  intros Hk Hc. cbv zeta.
  assert (K : tri (st u false false false false true T Dd (Some (P, Ms))) (mapM (stepToken fuel) (tokens (Elem "defs" attrs kids)))
    (fun _ => st u false false false false true T Dd (Some (P, Ms))) (lost T Dd (Some (P, Ms)))).
  { eapply elem_tri; [apply start_defs| |].
    - apply (nodes_tri_gen fuel (tidy u true) u true false false false true (Some (P, Ms)) kids); [cbn; auto|exact Hk|].
      apply Forall_forall. intros n _ Hn T0 D0. apply node_tri; cbn; auto.
    - apply end_to; [auto| |auto]. intros c1 H1. exact H1. }
  specialize (K c Hc). destruct (mapM (stepToken fuel) (tokens (Elem "defs" attrs kids)) c) as [c1 [[]|e| |]]; cbn [fst snd];
    (split; [|intros; try discriminate]); auto. eapply st_lost, K.
Qed.
Theorem defs_not_drawn fuel mode u pre attrs kids tm1 tm2 (s1 s2 : svg E) e1 e2 log1 log2 :
  tidy_at u pre -> forallb (tidy u true) kids = true ->
  parse fuel mode pre tm1 = PSvg s1 e1 log1 -> parse fuel mode (pre ++ tokens (Elem "defs" attrs kids)) tm2 = PSvg s2 e2 log2 ->
  sv_paths s2 = sv_paths s1 /\ sv_masks s2 = sv_masks s1 /\ sv_titles s2 = sv_titles s1 /\ sv_descs s2 = sv_descs s1.
Proof.
  intros Ha Hk H1 H2. apply parse_state in H1, H2. destruct H1 as [-> _], H2 as [-> _]. rewrite mapM_app. unfold bind.
  destruct (mapM (stepToken fuel) pre (cursor0 mode)) as [c [[]|e| |]] eqn:Hp; cbn [fst]; auto.
  destruct (tidy_at_st fuel mode u pre Ha c Hp) as (T & Dd & Hst).
  assert (Hst' : st u false false false false true T Dd (Some (sv_paths (c_svg c), sv_masks (c_svg c))) c).
  { destruct Hst. constructor; auto. split; reflexivity. }
  pose proof (defs_keep fuel u attrs kids T Dd _ _ c Hk Hst') as [L _]. destruct Hst. unfold lost, same_artq in L. destruct L as (L1 & L2 & L3 & L4).
  rewrite L1, L2, L3, L4. auto.
Qed.
End Flags.

(** * ProofsLocal: an element is accepted or refused whatever stands around it (C73) *)
From Coq Require Import ZArith Lia.
From Verif Require Import ProofsGrad ProofsData ProofsTok ProofsPath2 ProofsFuel ProofsMistake3.
From Verif Require Export SpecLocal.
Local Open Scope go_scope.
Local Open Scope nat_scope.

Section Local.
Context {E : Env} (md : errorMode).
Notation F := (F E).
Notation cursor := (cursor E).
Notation pcur := (pcur E).
Notation C := (@C E).

(** ** Path data *)
Definition same_log (c c' : pcur) : Prop := pc_mode c' = pc_mode c /\ pc_log c' = pc_log c.
Lemma sl_refl c : same_log c c. Proof. split; reflexivity. Qed.
Lemma sl_trans a b c : same_log a b -> same_log b c -> same_log a c. Proof. unfold same_log. intuition congruence. Qed.
Ltac kf := repeat first
  [ assumption
  | match goal with
    | |- forall _, keeps _ _ => intros ?
    | |- forall _ _, keeps _ _ => intros ? ?
    | |- keeps _ (ret _) => apply (keeps_ret same_log sl_refl)
    | |- keeps _ nofuel => apply (keeps_nofuel same_log sl_refl)
    | |- keeps _ (raise _) => apply (keeps_raise same_log sl_refl)
    | |- keeps _ (lift _) => apply (keeps_lift same_log sl_refl)
    | |- keeps _ (gets _) => apply (keeps_gets same_log sl_refl)
    | |- keeps _ reflectControlQuad => apply keeps_modify; intros c; destruct (is_key _ _); exact (sl_refl c)
    | |- keeps _ reflectControlCube => apply keeps_modify; intros c; destruct (is_key _ _); exact (sl_refl c)
    | |- keeps _ (pointsToAbs _) => intros c; unfold pointsToAbs; destruct (abs_outer _ _ _ _ _ _); exact (sl_refl c)
    | |- keeps _ (modify _) => apply keeps_modify; intros c; exact (sl_refl c)
    | |- keeps _ (onPath _) => unfold onPath
    | |- keeps _ points => unfold points
    | |- keeps _ (fxp _ _) => unfold fxp
    | |- keeps _ (fxpt _) => unfold fxpt
    | |- keeps _ (moveTo _) => unfold moveTo
    | |- keeps _ (addPlaceAt _) => unfold addPlaceAt
    | |- keeps _ (addArcFromA _) => unfold addArcFromA
    | |- keeps _ (requireSets _ _) => unfold requireSets, hasSetsOrMore
    | |- keeps _ (pnt _) => intros c; exact (sl_refl c)
    | |- keeps _ (valsToAbs _) => unfold valsToAbs
    | |- keeps _ (loop _ _ _ _ _) => apply (keeps_loop same_log sl_refl sl_trans)
    | |- keeps _ (mapM _ _) => apply (keeps_mapM same_log sl_refl sl_trans)
    | |- keeps _ (bind _ _) => apply (keeps_bind same_log sl_trans)
    | |- keeps _ (if _ then _ else _) => apply (keeps_if same_log)
    | |- keeps _ (match ?x with _ => _ end) => destruct x
    | |- keeps _ (let _ := _ in _) => cbv zeta
    end ].
Lemma sl_switch k l sz : set_size k = Some sz -> keeps same_log (segSwitch (E := E) k l).
Proof.
  intros Hk. pose proof (set_size_known k sz Hk) as HK. cbn in HK. clear Hk.
  repeat (destruct HK as [<-|HK]; [unfold segSwitch, eqk; cbn [Ascii.eqb Bool.eqb orb]; unfold segZ, segM, segL, segV, segH, segQ, segT, segC, segS, segA; kf|]). destruct HK.
Qed.

(** a computation on paths whose outcome and messages are always the same *)
Definition puni (m : P unit) : Prop := exists o d, forall c : pcur, pc_mode c = md -> exists c', m c = (c', o) /\ pc_mode c' = md /\ pc_log c' = pc_log c ++ d.
Lemma puni_bind (m m' : P unit) : puni m -> puni m' -> puni (m ;; m').
Proof.
  intros (o & d & H) (o' & d' & H'). destruct o as [[]|e| |].
  - exists o', (d ++ d'). intros c Hc. destruct (H c Hc) as (c1 & H1 & M1 & L1). destruct (H' c1 M1) as (c2 & H2 & M2 & L2).
    exists c2. unfold bind. rewrite H1, H2. split; [reflexivity|]. split; [exact M2|]. rewrite L2, L1, app_assoc. reflexivity.
  - exists (Err e), d. intros c Hc. destruct (H c Hc) as (c1 & H1 & M1 & L1). exists c1. unfold bind. rewrite H1. auto.
  - exists Panic, d. intros c Hc. destruct (H c Hc) as (c1 & H1 & M1 & L1). exists c1. unfold bind. rewrite H1. auto.
  - exists NoFuel, d. intros c Hc. destruct (H c Hc) as (c1 & H1 & M1 & L1). exists c1. unfold bind. rewrite H1. auto.
Qed.
Lemma puni_modify f : (forall c, same_log c (f c)) -> puni (modify f).
Proof. intros Hf. exists (Ret tt), []. intros c Hc. exists (f c). destruct (Hf c). unfold modify. rewrite app_nil_r. split; [reflexivity|split; congruence]. Qed.
Lemma puni_mapM (f : string -> P unit) l : Forall (fun s => puni (f s)) l -> puni (mapM f l).
Proof.
  induction 1 as [|s l Hs _ IH]; cbn [mapM]; [|apply puni_bind; assumption].
  exists (Ret tt), []. intros c Hc. exists c. rewrite app_nil_r. auto.
Qed.
Lemma puni_addSeg s : s <> EmptyString -> puni (addSeg s).
Proof.
  destruct s as [|k rest]; [congruence|]. intros _.
  destruct (snd (numbers (E := E) rest)) as [[]|e| |] eqn:Hn.
  2-4: eexists _, []; intros c Hc; rewrite addSeg_eq, Hn; eexists; split; [reflexivity|]; rewrite app_nil_r; split; [exact Hc|reflexivity].
  assert (K : exists o d, forall c : pcur, pc_mode c = md -> pc_points c = fst (numbers (E := E) rest) ->
    exists c', segSwitch k (length (fst (numbers (E := E) rest))) c = (c', o) /\ pc_mode c' = md /\ pc_log c' = pc_log c ++ d).
  { destruct (set_size k) as [sz|] eqn:Hs.
    - destruct (good_count k (length (fst (numbers (E := E) rest)))) eqn:Hg.
      + exists (Ret tt), []. intros c Hc Hp. destruct (segSwitch_good k sz c Hs) as (c' & H); [rewrite Hp; exact Hg|]. rewrite Hp in H. exists c'. split; [exact H|].
        destruct (sl_switch k (length (fst (numbers (E := E) rest))) sz Hs c) as [K1 K2]. rewrite H in K1, K2. cbn [fst] in K1, K2. rewrite app_nil_r. split; congruence.
      + exists (Err ErrParamMismatch), []. intros c Hc Hp. exists c. rewrite <- Hp. rewrite (segSwitch_bad k sz c Hs); [|rewrite Hp; exact Hg]. rewrite app_nil_r. auto.
    - rewrite segSwitch_unknown by exact Hs. unfold segUnknown, bind, gets. destruct md.
      + exists (Ret tt), []. intros c Hc _. rewrite Hc. exists c. rewrite app_nil_r. auto.
      + exists (Ret tt). eexists [_]. intros c Hc _. rewrite Hc. eexists. split; [reflexivity|]. split; [exact Hc|reflexivity].
      + exists (Err ErrCommandUnknown), []. intros c Hc _. rewrite Hc. exists c. rewrite app_nil_r. auto. }
  destruct K as (o & d & K). exists o, d. intros c Hc. rewrite addSeg_eq, Hn. unfold bind.
  destruct (K (set_points (fst (numbers (E := E) rest)) c) Hc eq_refl) as (c' & K1 & K2 & K3). rewrite K1.
  destruct o as [[]|e| |]; eexists; (split; [reflexivity|]); split; first [exact K2|exact K3].
Qed.
Lemma puni_compile s : puni (compilePath s).
Proof.
  assert (K : puni (pinit ;; mapM addSeg (segments (E := E) s))).
  { apply puni_bind; [apply puni_modify; intros; split; reflexivity|]. apply puni_mapM. eapply Forall_impl; [|apply segments_ne]. intros t Ht. apply puni_addSeg, Ht. }
  destruct K as (o & d & K). exists o, d. intros c Hc. rewrite compilePath_segments. exact (K c Hc).
Qed.

Lemma idx_in {A} (l : list A) i : i < length l -> exists a, idx l i = Ret a.
Proof. unfold idx. intros H. destruct (nth_error l i) eqn:He; [eauto|]. apply nth_error_None in He. lia. Qed.
(** ** Two runs side by side *)
(** [f]: inside <defs>, inside a gradient *)
Record J (f : bool * bool) (n : nat) (l : list string) (c : cursor) : Prop := mkJ {
  j_mode : pc_mode (c_pc c) = md; j_log : pc_log (c_pc c) = l; j_stack : length (c_stack c) = S n;
  j_defs : c_inDefs c = fst f; j_grad : c_inGrad c = snd f;
  j_grads : Forall (fun e => snd e < length (c_gheap c)) (sv_grads (c_svg c));
  j_ptr : forall p, c_grad c = Some p -> p < length (c_gheap c); j_some : snd f = true -> c_grad c <> None;
  j_title : c_inTitle c = true -> sv_titles (c_svg c) <> []; j_desc : c_inDesc c = true -> sv_descs (c_svg c) <> [] }.
Definition same {A B} (R : A -> B -> Prop) (o : outcome A) (o' : outcome B) : Prop :=
  match o, o' with
  | Ret a, Ret b => R a b
  | Err e, Err e' => e = e'
  | Panic, Panic | NoFuel, NoFuel => True
  | _, _ => False
  end.
Definition anyv {A B} (a : A) (b : B) : Prop := True.
Definition tw2 f f' {A B} (R : A -> B -> Prop) (m : C A) (m' : C B) : Prop := forall n n' l l' c c', J f n l c -> J f n' l' c' ->
  exists d, J f' n (l ++ d) (fst (m c)) /\ J f' n' (l' ++ d) (fst (m' c')) /\ same R (snd (m c)) (snd (m' c')).
Lemma tw_bind f f' {A B A' B'} (R : A -> B -> Prop) (T : A' -> B' -> Prop) m m' k k' : tw2 f f' R m m' -> (forall a b, R a b -> tw2 f' f' T (k a) (k' b)) -> tw2 f f' T (bind m k) (bind m' k').
Proof.
  intros H K n n' l l' c c' H1 H2. destruct (H n n' l l' c c' H1 H2) as (d & D1 & D2 & D3). unfold bind.
  destruct (m c) as [c1 o], (m' c') as [c1' o']. cbn [fst snd] in *.
  destruct o as [a|e| |], o' as [b|e'| |]; cbn in D3; try contradiction; try solve [exists d; cbn; auto].
  destruct (K a b D3 n n' _ _ c1 c1' D1 D2) as (d' & E1 & E2 & E3). exists (d ++ d'). rewrite !app_assoc. auto.
Qed.
Lemma tw_attempt f f' m m' : tw2 f f' anyv m m' -> tw2 f f' eq (attempt m) (attempt m').
Proof.
  intros H n n' l l' c c' H1 H2. destruct (H n n' l l' c c' H1 H2) as (d & D1 & D2 & D3). unfold attempt.
  destruct (m c) as [c1 o], (m' c') as [c1' o']. cbn [fst snd] in *. exists d.
  destruct o as [a|e| |], o' as [b|e'| |]; cbn in D3; try contradiction; cbn; subst; auto.
Qed.
Lemma same_refl {A} (o : outcome A) : same anyv o o. Proof. destruct o; cbn; auto. exact I. Qed.
Lemma same_eq {A} (o : outcome A) : same eq o o. Proof. destruct o; cbn; auto. Qed.
(** a computation that always succeeds and leaves the state in order *)
Definition calmly f (m : C unit) : Prop := forall n l c, J f n l c -> exists c', m c = (c', Ret tt) /\ J f n l c'.
Context (fuel kt : nat) (Hturns : turns (E := E) kt) (Hkt : kt <= fuel) (Hurl : lower_url E).

Section Flags.
Context (f : bool * bool).
Notation tw := (tw2 f f).
Notation J := (J f).
Notation calmly := (calmly f).
Lemma tw_keep {A B} (R : A -> B -> Prop) (m : C A) (m' : C B) :
  (forall n n' l l' c c', J n l c -> J n' l' c' -> J n l (fst (m c)) /\ J n' l' (fst (m' c')) /\ same R (snd (m c)) (snd (m' c'))) -> tw R m m'.
Proof. intros H n n' l l' c c' H1 H2. exists []. rewrite !app_nil_r. apply H; assumption. Qed.
Lemma tw_ret {A B} (R : A -> B -> Prop) a b : R a b -> tw R (ret a) (ret b).
Proof. intros H. apply tw_keep. intros. cbn. auto. Qed.
Lemma tw_raise {A B} (R : A -> B -> Prop) e : tw R (raise e) (raise e).
Proof. apply tw_keep. intros. cbn. auto. Qed.
Lemma tw_lift {A B} (R : A -> B -> Prop) o o' : same R o o' -> tw R (lift o) (lift o').
Proof. intros H. apply tw_keep. intros. cbn. auto. Qed.
Lemma tw_gets {A B} (R : A -> B -> Prop) u v : (forall n n' l l' c c', J n l c -> J n' l' c' -> R (u c) (v c')) -> tw R (gets u) (gets v).
Proof. intros H. apply tw_keep. intros n n' l l' c c' H1 H2. cbn. split; [exact H1|split; [exact H2|exact (H _ _ _ _ _ _ H1 H2)]]. Qed.
Lemma tw_modify u v : (forall n l c, J n l c -> J n l (u c)) -> (forall n l c, J n l c -> J n l (v c)) -> tw anyv (modify u) (modify v).
Proof. intros H H'. apply tw_keep. intros. cbn. split; [auto|split; [auto|exact I]]. Qed.
Lemma tw_fold {X A B} (R : A -> B -> Prop) (u : A -> X -> C A) (v : B -> X -> C B) xs : (forall a b x, R a b -> tw R (u a x) (v b x)) -> forall a b, R a b -> tw R (foldM u a xs) (foldM v b xs).
Proof. intros H. induction xs as [|x xs IH]; intros a b Hab; cbn [foldM]; [apply tw_ret, Hab|]. eapply tw_bind; [apply H, Hab|]. intros a1 b1 H1. apply IH, H1. Qed.
Lemma tw_mapM {X} (u v : X -> C unit) xs : (forall x, tw anyv (u x) (v x)) -> tw anyv (mapM u xs) (mapM v xs).
Proof. intros H. induction xs as [|x xs IH]; cbn [mapM]; [apply tw_ret; exact I|]. eapply tw_bind; [apply H|]. intros _ _ _. exact IH. Qed.
Lemma tw_calm m m' : calmly m -> calmly m' -> tw anyv m m'.
Proof.
  intros H H'. apply tw_keep. intros n n' l l' c c' Hc Hc'. destruct (H n l c Hc) as (d & -> & D), (H' n' l' c' Hc') as (d' & -> & D'). cbn. split; [exact D|split; [exact D'|exact I]].
Qed.
Lemma calm_ret : calmly (ret tt). Proof. intros n l c H. exists c. auto. Qed.
Lemma calm_if (b : bool) m m' : calmly m -> calmly m' -> calmly (if b then m else m'). Proof. destruct b; auto. Qed.

(** ** The state *)
Lemma J_pc n l c p : J n l c -> pc_mode p = md -> J n (pc_log p) (c_set_pc p c).
Proof. intros [] H. constructor; try assumption. reflexivity. Qed.
Lemma J_same n l c p : J n l c -> same_log (c_pc c) p -> J n l (c_set_pc p c).
Proof. intros [] [H1 H2]. constructor; cbn; try assumption; congruence. Qed.
Lemma J_svg n l c (u : svg E -> svg E) : J n l c -> (forall s, sv_grads (u s) = sv_grads s) -> (forall s, sv_titles s <> [] -> sv_titles (u s) <> []) -> (forall s, sv_descs s <> [] -> sv_descs (u s) <> []) -> J n l (c_set_svg (u (c_svg c)) c).
Proof. intros [] H1 H2 H3. constructor; cbn; try assumption; [rewrite H1; assumption|auto..]. Qed.
Lemma tw_onSvg u v : (forall s, sv_grads (u s) = sv_grads s) -> (forall s, sv_titles (u s) = sv_titles s) -> (forall s, sv_descs (u s) = sv_descs s) ->
  (forall s, sv_grads (v s) = sv_grads s) -> (forall s, sv_titles (v s) = sv_titles s) -> (forall s, sv_descs (v s) = sv_descs s) -> tw anyv (onSvg u) (onSvg v).
Proof. intros. apply tw_modify; intros n l c H'; apply J_svg; auto; intros; congruence. Qed.
Lemma tw_onCPath u v : tw anyv (onCPath u) (onCPath v).
Proof. apply tw_keep. intros n n' l l' c c' H H'. unfold onCPath, liftP, onPath, modify. cbn. split; [|split; [|exact I]]; apply J_same; auto; split; reflexivity. Qed.
Lemma tw_fxp a b x y : tw anyv (liftP (fxp a b)) (liftP (fxp x y)).
Proof. apply tw_keep. intros n n' l l' c c' H H'. unfold liftP, fxp, gets. cbn. split; [|split; [|exact I]]; apply J_same; auto; apply sl_refl. Qed.
Lemma tw_puni m : puni m -> tw anyv (liftP m) (liftP m).
Proof.
  intros (o & d & H) n n' l l' c c' Hc Hc'. exists d. unfold liftP.
  destruct (H (c_pc c) (j_mode _ _ _ _ Hc)) as (p & P1 & P2 & P3). destruct (H (c_pc c') (j_mode _ _ _ _ Hc')) as (q & Q1 & Q2 & Q3). rewrite P1, Q1. cbn [fst snd].
  rewrite (j_log _ _ _ _ Hc) in P3. rewrite (j_log _ _ _ _ Hc') in Q3. rewrite <- P3, <- Q3.
  split; [eapply J_pc; eassumption|]. split; [eapply J_pc; eassumption|apply same_refl].
Qed.
Lemma tw_handle s : tw anyv (handleError s) (handleError s).
Proof.
  unfold handleError. intros n n' l l' c c' Hc Hc'. unfold bind, gets. rewrite (j_mode _ _ _ _ Hc), (j_mode _ _ _ _ Hc').
  destruct md eqn:Hm; [exists []|exists [s]|exists []]; rewrite ?app_nil_r.
  - split; [exact Hc|]. split; [exact Hc'|exact I].
  - rewrite <- (j_log _ _ _ _ Hc), <- (j_log _ _ _ _ Hc'). unfold liftP, println, modify. cbn [fst snd].
    split; [|split; [|exact I]].
    + apply (J_pc _ _ _ (set_log (pc_log (c_pc c) ++ [s]) (c_pc c)) Hc). exact (j_mode _ _ _ _ Hc).
    + apply (J_pc _ _ _ (set_log (pc_log (c_pc c') ++ [s]) (c_pc c')) Hc'). exact (j_mode _ _ _ _ Hc').
  - split; [exact Hc|]. split; [exact Hc'|reflexivity].
Qed.
Lemma tw_top : tw anyv (topStyle (E := E)) topStyle.
Proof.
  apply tw_keep. intros n n' l l' c c' Hc Hc'. unfold topStyle. pose proof (j_stack _ _ _ _ Hc). pose proof (j_stack _ _ _ _ Hc').
  destruct (c_stack c); [discriminate|]. destruct (c_stack c'); [discriminate|]. cbn. split; [assumption|split; [assumption|exact I]].
Qed.
Lemma tw_unit s w : tw anyv (cParseUnit s w) (cParseUnit s w).
Proof.
  apply tw_keep. intros. unfold cParseUnit. cbn [fst snd]. split; [assumption|split; [assumption|]]. unfold resolveUnit.
  destruct (parseUnit (E := E) s) as [[v b]|e| |]; cbn; auto. destruct b; [destruct w|]; exact I.
Qed.
Lemma tw_points v {A B} (R : A -> B -> Prop) k k' : (forall err, tw R (k err (fst (numbers (E := E) v))) (k' err (fst (numbers (E := E) v)))) ->
  tw R (err <- attempt (cGetPoints v) ;; ps <- cPoints ;; k err ps) (err <- attempt (cGetPoints v) ;; ps <- cPoints ;; k' err ps).
Proof.
  intros H n n' l l' c c' Hc Hc'.
  assert (J1 : J n l (c_set_pc (set_points (fst (numbers (E := E) v)) (c_pc c)) c)) by (apply J_same; [assumption|split; reflexivity]).
  assert (J2 : J n' l' (c_set_pc (set_points (fst (numbers (E := E) v)) (c_pc c')) c')) by (apply J_same; [assumption|split; reflexivity]).
  destruct (numbers_total (E := E) v) as [Hn|[e Hn]].
  - specialize (H None n n' l l' _ _ J1 J2). unfold attempt, cGetPoints, liftP, bind, cPoints, gets. rewrite !getPoints_numbers, Hn. exact H.
  - specialize (H (Some e) n n' l l' _ _ J1 J2). unfold attempt, cGetPoints, liftP, bind, cPoints, gets. rewrite !getPoints_numbers, Hn. exact H.
Qed.

(** ** Styles *)
Ltac tws := repeat first
  [ exact I
  | match goal with
    | |- forall _ _, anyv _ _ -> tw2 _ _ _ _ _ => intros ? ? _
    | |- tw2 _ _ _ (ret _) (ret _) => apply tw_ret
    | |- tw2 _ _ _ (raise _) (raise _) => apply tw_raise
    | |- tw2 _ _ _ (cParseUnit _ _) _ => apply tw_unit
    | |- tw2 _ _ _ (handleError _) _ => apply tw_handle
    | |- tw2 _ _ _ topStyle _ => apply tw_top
    | |- tw2 _ _ _ (lift ?o) (lift ?o) => apply tw_lift, same_refl
    | |- tw2 _ _ _ (onCPath _) _ => apply tw_onCPath
    | |- tw2 _ _ _ (liftP (fxp _ _)) _ => apply tw_fxp
    | |- tw2 _ _ _ (bind _ _) (bind _ _) => eapply (tw_bind _ _ anyv)
    | |- tw2 _ _ _ (if ?b then _ else _) (if ?b then _ else _) => destruct b
    end ].
Lemma tw_gradURL v p q : tw (fun g h => g = None /\ h = None \/ exists col, parseSVGColor (E := E) v = Ret col) (readGradURL (E := E) v p) (readGradURL v q).
Proof.
  unfold readGradURL. destruct (hasPrefix v "url(" && _) eqn:Hp; [|apply tw_ret; auto]. apply andb_prop in Hp as [Hp _].
  eapply (tw_bind _ _ eq); [apply tw_lift, same_eq|]. intros s ? <-. cbv zeta.
  destruct (hasPrefix (trimSpace s) "#"); [|apply tw_ret; auto]. eapply (tw_bind _ _ eq); [apply tw_lift, same_eq|]. intros id ? <-.
  assert (Hc : exists col, parseSVGColor (E := E) v = Ret col) by (unfold parseSVGColor; rewrite (Hurl v Hp); eexists; reflexivity).
  assert (K : forall p n l c, J n l c -> exists g, (c <- gets (fun c : cursor => c) ;;
    match mget id (sv_grads (c_svg c)) with Some ptr => g <- lift (idx (c_gheap c) ptr) ;; ret (Some (localizeGrad g p)) | None => ret None end) c = (c, Ret g)).
  { intros p0 n l c H. unfold bind, gets. destruct (mget id (sv_grads (c_svg c))) as [ptr|] eqn:Hg; [|eexists; reflexivity].
    pose proof (mget_forall (fun x => x < length (c_gheap c)) _ _ _ (j_grads _ _ _ _ H) Hg) as Hlt. cbv beta in Hlt. destruct (idx_in (c_gheap c) ptr Hlt) as (g & Hi). unfold lift. rewrite Hi. eexists. reflexivity. }
  apply tw_keep. intros n n' l l' c c' H H'. destruct (K p n l c H) as (g & ->), (K q n' l' c' H') as (h & ->). cbn. auto.
Qed.
Lemma same_transform (m m' : matrix E) k pts : same anyv (readTransformAttr m k pts) (readTransformAttr m' k pts).
Proof.
  unfold readTransformAttr. repeat match goal with |- context [if ?b then _ else _] => destruct b end; try reflexivity;
    repeat match goal with |- context [match ?l with _ => _ end] => match type of l with list _ => destruct l end end; first [exact I|reflexivity].
Qed.
Lemma tw_transform v : tw anyv (parseTransform (E := E) v) (parseTransform v).
Proof.
  unfold parseTransform. eapply (tw_bind _ _ anyv); [apply tw_top|]. intros t t' _. apply tw_fold; [|exact I]. intros m m' x _. unfold transformStep. cbv zeta.
  destruct (_ =? 0); [apply tw_ret; exact I|]. destruct (split1 "(" _) as [|d0 [|d1 [|]]]; try apply tw_raise. destruct (_ <? 1); [apply tw_raise|].
  intros n n' l l' c c' Hc Hc'. exists []. rewrite !app_nil_r. unfold bind, liftP, gets. rewrite !getPoints_numbers.
  assert (J1 : J n l (c_set_pc (set_points (fst (numbers (E := E) d1)) (c_pc c)) c)) by (apply J_same; [assumption|split; reflexivity]).
  assert (J2 : J n' l' (c_set_pc (set_points (fst (numbers (E := E) d1)) (c_pc c')) c')) by (apply J_same; [assumption|split; reflexivity]).
  destruct (numbers_total (E := E) d1) as [Hn|[e Hn]]; rewrite Hn; cbn [fst snd].
  - split; [exact J1|]. split; [exact J2|]. apply same_transform.
  - split; [exact J1|]. split; [exact J2|]. reflexivity.
Qed.
Lemma tw_dashes l : tw anyv (parseDashes (E := E) l) (parseDashes l).
Proof. induction l as [|s l IH]; cbn [parseDashes]; [apply tw_ret; exact I|]. tws. exact IH. Qed.
Lemma tw_append a b s : tw anyv (appendStr (E := E) a s) (appendStr b s).
Proof.
  apply tw_keep. intros n n' l l' c c' Hc Hc'. unfold appendStr.
  destruct (_ <? _), (_ <? _); cbn [fst snd]; (split; [|split; [|exact I]]); apply J_svg; auto.
Qed.
Lemma tw_styleAttr st st' k v : tw anyv (readStyleAttr (E := E) st k v) (readStyleAttr st' k v).
Proof.
  unfold readStyleAttr.
  repeat match goal with
  | |- tw2 _ _ _ (if ?b then _ else _) (if ?b then _ else _) => destruct b
  | |- tw2 _ _ _ (match ?x with _ => _ end) (match ?x with _ => _ end) => destruct x
  end; try (eapply tw_bind; [apply tw_gradURL|]; intros [] [] [[Q1 Q2]|(col & Q)]; try discriminate; try rewrite Q; first [solve [tws]|apply tw_keep; intros; cbn; split; [assumption|split; [assumption|exact I]]]);
    try (eapply (tw_bind _ _ eq); [apply tw_lift, same_eq|]; intros id ? <-; eapply (tw_bind _ _ anyv); [apply tw_append|]; solve [tws]); tws.
  - apply tw_dashes.
  - apply tw_transform.
Qed.
Definition pushed (attrs : list attr) : C (style E) := top <- topStyle ;; foldM stylePair top (stylePairs (E := E) attrs).
Lemma tw_pushed attrs : tw anyv (pushed attrs) (pushed attrs).
Proof.
  unfold pushed. eapply (tw_bind _ _ anyv); [apply tw_top|]. intros t t' _. apply tw_fold; [|exact I]. intros a b x _. unfold stylePair.
  destruct (split1 ":" x) as [|k [|v r]]; tws. apply tw_styleAttr.
Qed.

(** ** Elements *)
Lemma round_ret a b c d u v w p : exists q, addRoundRect (E := E) fuel a b c d u v w p = Ret q.
Proof.
  assert (G : forall m x t l p, exists q, roundGap (E := E) fuel m x t l p = Ret q).
  { intros m x t l p0. pose proof (fine_roundGap kt Hturns fuel m x t l p0 Hkt) as H. unfold roundGap, addCircArc in *.
    destruct (raise_angle fuel _ _) as [r|e| |] eqn:Hr; cbn in H |- *; try contradiction; [eexists; reflexivity|destruct (raise_no_err _ _ _ _ Hr)]. }
  unfold addRoundRect. destruct (_ || _); [eexists; reflexivity|]. cbv zeta.
  do 4 (match goal with |- context [roundGap fuel ?m ?x ?t ?l ?p0] => destruct (G m x t l p0) as (? & ->) end; cbn [obind]). eexists. reflexivity.
Qed.
Lemma tw_svg attrs : tw anyv (svgF (E := E) attrs) (svgF attrs).
Proof.
  unfold svgF. eapply (tw_bind _ _ anyv); [apply tw_onSvg; reflexivity|]. intros _ _ _. eapply (tw_bind _ _ anyv).
  - apply tw_fold; [|exact I]. intros [w h] [w' h'] x _. unfold svgAttr. destruct (is x "viewBox").
    { apply tw_points. intros err. destruct (fst _) as [|x0 [|x1 [|x2 [|x3 [|]]]]]; try apply tw_raise.
      eapply (tw_bind _ _ anyv); [apply tw_onSvg; reflexivity|]. intros _ _ _. destruct err; tws. }
    destruct (is x "width"). { eapply (tw_bind _ _ anyv); [apply tw_onSvg; reflexivity|]. tws. }
    destruct (is x "height"). { eapply (tw_bind _ _ anyv); [apply tw_onSvg; reflexivity|]. tws. }
    tws.
  - intros [w h] [w' h'] _. apply tw_onSvg; intros s; cbv beta zeta; repeat match goal with |- context [if ?b then _ else _] => destruct b end; reflexivity.
Qed.
Ltac tup := repeat match goal with x : (_ * F)%type |- _ => destruct x end.
Lemma tw_rect attrs : tw anyv (rectF (E := E) fuel attrs) (rectF fuel attrs).
Proof.
  unfold rectF. eapply (tw_bind _ _ anyv). { apply tw_fold; [|exact I]. intros a b x _. tup. unfold rectAttr. tws. }
  intros a b _. tup. 
  assert (K : forall x y w h rx ry x' y' w' h' rx' ry', tw anyv
    ('(cx, cy) <- curXY ;; p <- gets (fun c => pc_path (c_pc c)) ;;
      p <- lift (addRoundRect fuel (fadd E x cx) (fadd E y cy) (fadd E (fadd E w x) cx) (fadd E (fadd E h y) cy) rx ry (fnum E 0) p) ;; onCPath (fun _ => p))
    ('(cx, cy) <- curXY ;; p <- gets (fun c => pc_path (c_pc c)) ;;
      p <- lift (addRoundRect fuel (fadd E x' cx) (fadd E y' cy) (fadd E (fadd E w' x') cx) (fadd E (fadd E h' y') cy) rx' ry' (fnum E 0) p) ;; onCPath (fun _ => p))).
  { intros. eapply (tw_bind _ _ anyv); [apply tw_gets; intros; exact I|]. intros [] [] _. eapply (tw_bind _ _ anyv); [apply tw_gets; intros; exact I|]. intros p q _.
    eapply (tw_bind _ _ anyv); [|intros; apply tw_onCPath]. apply tw_lift.
    match goal with |- same _ (addRoundRect _ ?a ?b ?c ?d ?u ?v ?w ?p) (addRoundRect _ ?a' ?b' ?c' ?d' ?u' ?v' ?w' ?p') =>
      destruct (round_ret a b c d u v w p) as (? & ->), (round_ret a' b' c' d' u' v' w' p') as (? & ->) end. exact I. }
  assert (K1 : forall x y w h rx ry, tw anyv (ret tt : C unit)
    ('(cx, cy) <- curXY ;; p <- gets (fun c => pc_path (c_pc c)) ;;
      p <- lift (addRoundRect fuel (fadd E x cx) (fadd E y cy) (fadd E (fadd E w x) cx) (fadd E (fadd E h y) cy) rx ry (fnum E 0) p) ;; onCPath (fun _ => p))).
  { intros ? ? ? ? ? ? n n' l l' c c' Hc Hc'. exists []. rewrite !app_nil_r. unfold bind, curXY, gets, lift. cbv iota beta.
    match goal with |- context [addRoundRect _ ?a ?b ?c ?d ?u ?v ?w ?p] => destruct (round_ret a b c d u v w p) as (? & ->) end. cbn.
    split; [exact Hc|]. split; [|exact I]. apply J_same; [exact Hc'|split; reflexivity]. }
  assert (K2 : forall m : C unit, tw anyv (ret tt) m -> tw anyv m (ret tt)).
  { intros m H n n' l l' c c' Hc Hc'. destruct (H n' n l' l c' c Hc' Hc) as (d & D1 & D2 & D3). exists d. split; [exact D2|]. split; [exact D1|].
    cbn in D3. destruct (snd (m c)); try contradiction. exact I. }
  destruct (feqb E _ _ || feqb E _ _), (feqb E _ _ || feqb E _ _); cbv zeta.
  - tws.
  - apply K1.
  - apply K2, K1.
  - apply K.
Qed.
Lemma calm_onCPath u : calmly (onCPath u).
Proof. intros n l c H. eexists. split; [reflexivity|]. apply J_same; [exact H|split; reflexivity]. Qed.
Lemma calm_ellipse a b x y : calmly (liftP (ellipseAt a b x y)).
Proof.
  intros n l c H. unfold liftP, ellipseAt, bind, modify, gets, onPath, lift, addArc. cbn. destruct (ellSegs _ _ _ _ _ _ _ _ _ _ _ _ _ _ _ _ _ _ _) as [p [lx ly]]. cbn.
  eexists. split; [reflexivity|]. apply J_same; [exact H|split; reflexivity].
Qed.
Lemma tw_circle attrs : tw anyv (circleF (E := E) attrs) (circleF attrs).
Proof.
  unfold circleF. eapply (tw_bind _ _ anyv). { apply tw_fold; [|exact I]. intros a b x _. tup. unfold circleAttr. tws. }
  intros a b _. tup.
  assert (K : forall u v cx cy rx ry, calmly (if feqb E u (fnum E 0) || feqb E v (fnum E 0) then ret tt else '(ox, oy) <- curXY ;; liftP (ellipseAt (fadd E cx ox) (fadd E cy oy) rx ry))).
  { intros u v cx cy rx ry. apply calm_if; [apply calm_ret|]. intros n l c H. unfold bind, curXY, gets. apply calm_ellipse, H. }
  apply tw_calm; apply K.
Qed.
Lemma tw_line attrs : tw anyv (lineF (E := E) attrs) (lineF attrs).
Proof.
  unfold lineF. eapply (tw_bind _ _ anyv). { apply tw_fold; [|exact I]. intros a b x _. tup. unfold lineAttr. tws. }
  intros a b _. tup. tws.
Qed.
Lemma fxpt_ret i (c : cursor) : i + 1 < length (pc_points (c_pc c)) -> exists a, liftP (fxpt i) c = (c, Ret a).
Proof.
  intros H. unfold liftP, fxpt, bind, pnt, fxp, gets. destruct (idx_in (pc_points (c_pc c)) i) as (a & ->); [lia|]. destruct (idx_in (pc_points (c_pc c)) (i + 1)) as (b & ->); [lia|].
  eexists. destruct c; reflexivity.
Qed.
Lemma loop_calm m k : forall i n l c, J n l c -> length (pc_points (c_pc c)) = m -> m <= i + 2 * k ->
  exists c', loop k i 2 (m - 1) (fun i => b <- liftP (fxpt i) ;; onCPath (pLine b)) c = (c', Ret tt) /\ J n l c' /\ pc_points (c_pc c') = pc_points (c_pc c).
Proof.
  induction k as [|k IH]; intros i n l c H Hm Hi; cbn [loop]; destruct (i <? m - 1) eqn:Hlt; try (exists c; auto; fail); apply Nat.ltb_lt in Hlt; [lia|].
  unfold bind at 1. destruct (fxpt_ret i c) as (a & Ha); [lia|]. unfold bind at 1. rewrite Ha.
  change (onCPath (pLine a) c) with (c_set_pc (set_path (pLine a (pc_path (c_pc c))) (c_pc c)) c, @Ret unit tt). cbv iota beta.
  destruct (IH (i + 2) n l (c_set_pc (set_path (pLine a (pc_path (c_pc c))) (c_pc c)) c)) as (c' & H1 & H2 & H3); [apply J_same; [exact H|split; reflexivity]|exact Hm|lia|].
  exists c'. split; [exact H1|]. split; [exact H2|exact H3].
Qed.
Definition poly_draw : C unit := ps <- cPoints ;;
  if 4 <? List.length ps then
    a <- liftP (fxpt 0) ;; onCPath (pStart a) ;;
    loop (List.length ps) 2 2 (List.length ps - 1)
         (fun i => b <- liftP (fxpt i) ;; onCPath (pLine b))
  else ret tt.
Lemma calm_poly : calmly poly_draw.
Proof.
  intros n l c H. unfold poly_draw, cPoints. unfold bind at 1, gets. destruct (4 <? _) eqn:Hl; [|exists c; auto]. apply Nat.ltb_lt in Hl.
  destruct (fxpt_ret 0 c) as (a & Ha); [lia|]. unfold bind at 1. rewrite Ha. unfold bind at 1.
  change (onCPath (pStart a) c) with (c_set_pc (set_path (pStart a (pc_path (c_pc c))) (c_pc c)) c, @Ret unit tt). cbv iota beta.
  destruct (loop_calm (length (pc_points (c_pc c))) (length (pc_points (c_pc c))) 2 n l (c_set_pc (set_path (pStart a (pc_path (c_pc c))) (c_pc c)) c)) as (c' & H1 & H2 & _);
    [apply J_same; [exact H|split; reflexivity]|reflexivity|lia|]. exists c'. split; [exact H1|exact H2].
Qed.
Lemma tw_polyline attrs : tw anyv (polylineF (E := E) attrs) (polylineF attrs).
Proof.
  unfold polylineF. eapply (tw_bind _ _ anyv).
  - apply tw_fold; [|exact I]. intros [] [] x _. unfold polyAttr. destruct (is x "points"); [|tws]. apply tw_points. intros err. destruct (negb _); tws. destruct err; tws.
  - intros _ _ _. apply tw_calm; exact calm_poly.
Qed.
Lemma tw_polygon attrs : tw anyv (polygonF (E := E) attrs) (polygonF attrs).
Proof.
  unfold polygonF. eapply (tw_bind _ _ eq); [apply tw_attempt, tw_polyline|]. intros err ? <-. eapply (tw_bind _ _ anyv); [apply tw_gets; intros; exact I|]. intros ps ps' _.
  eapply (tw_bind _ _ anyv); [apply tw_calm; apply calm_if; first [apply calm_onCPath|apply calm_ret]|]. intros _ _ _. destruct err; tws.
Qed.
Lemma tw_path attrs : tw anyv (pathF (E := E) attrs) (pathF attrs).
Proof. unfold pathF. apply tw_mapM. intros x. destruct (is x "d"); [apply tw_puni, puni_compile|tws]. Qed.
Lemma calm_desc attrs : calmly (descF attrs).
Proof. intros n l c []. eexists. split; [reflexivity|]. constructor; cbn; try assumption. intros _ H. apply app_eq_nil in H as [_ H]. discriminate. Qed.
Lemma calm_title attrs : calmly (titleF attrs).
Proof. intros n l c []. eexists. split; [reflexivity|]. constructor; cbn; try assumption. intros _ H. apply app_eq_nil in H as [_ H]. discriminate. Qed.
(** *** Gradients *)
Lemma tw_onGrad (u v : gradient E -> gradient E) : snd f = true -> tw anyv (onGrad u) (onGrad v).
Proof.
  intros Hf. assert (K : forall w, calmly (onGrad w)); [|apply tw_calm; apply K].
  intros w n l c H. unfold onGrad. pose proof (j_some _ _ _ _ H Hf) as Hs. destruct (c_grad c) as [p|] eqn:Hp; [|congruence].
  pose proof (j_ptr _ _ _ _ H p Hp) as Hlt. destruct (nth_error (c_gheap c) p) as [g|] eqn:Hg; [|apply nth_error_None in Hg; lia].
  eexists. split; [reflexivity|]. assert (L : length (set_nth (c_gheap c) p (w g)) = length (c_gheap c)) by (clear; revert p; induction (c_gheap c) as [|x r IH]; intros [|p]; cbn; auto).
  destruct H. constructor; cbn; try rewrite L; try assumption.
  all: try (intros; rewrite L; auto; fail).
Qed.
Lemma tw_stop attrs : tw anyv (stopF (E := E) attrs) (stopF attrs).
Proof.
  unfold stopF. eapply (tw_bind _ _ (fun a b => a = snd f /\ b = snd f)). { apply tw_gets. intros n n' l l' c c' H H'. split; [exact (j_grad _ _ _ _ H)|exact (j_grad _ _ _ _ H')]. }
  intros a b [-> ->]. destruct (snd f) eqn:Hf; [|tws]. eapply (tw_bind _ _ anyv); [|intros; apply tw_onGrad; exact Hf].
  apply tw_fold; [|exact I]. intros s s' x _. unfold stopAttr. tws.
Qed.
Lemma tw_register id : snd f = true -> tw anyv (registerGrad (E := E) id) (registerGrad id).
Proof.
  intros Hf. assert (K : calmly (registerGrad id)); [|apply tw_calm; apply K].
  intros n l c H. unfold registerGrad. pose proof (j_some _ _ _ _ H Hf) as Hs. destruct (c_grad c) as [p|] eqn:Hp; [|congruence].
  eexists. split; [reflexivity|]. pose proof (j_ptr _ _ _ _ H p Hp) as Hlt. destruct H. constructor; cbn; try assumption.
  - apply (mput_forall (fun x => x < length (c_gheap c))); assumption.
Qed.
Lemma tw_gradAttr a : snd f = true -> tw anyv (readGradAttr (E := E) a) (readGradAttr a).
Proof.
  intros Hf. unfold readGradAttr. cbv zeta. repeat match goal with |- context [if ?b then _ else _] => destruct b end; try (apply tw_onGrad, Hf); tws; [apply tw_transform|apply tw_onGrad, Hf].
Qed.
Lemma tw_theGrad : snd f = true -> tw anyv (theGrad (E := E)) theGrad.
Proof.
  intros Hf. apply tw_keep. intros n n' l l' c c' H H'. unfold theGrad.
  pose proof (j_some _ _ _ _ H Hf) as Hs. destruct (c_grad c) as [p|] eqn:Hp; [|congruence]. destruct (idx_in _ _ (j_ptr _ _ _ _ H p Hp)) as (g & ->).
  pose proof (j_some _ _ _ _ H' Hf) as Hs'. destruct (c_grad c') as [p'|] eqn:Hp'; [|congruence]. destruct (idx_in _ _ (j_ptr _ _ _ _ H' p' Hp')) as (g' & ->).
  cbn. split; [exact H|split; [exact H'|exact I]].
Qed.
Lemma same_resolve (b b' : bounds E) s w : same anyv (resolveUnit b s w) (resolveUnit b' s w).
Proof. unfold resolveUnit. destruct (parseUnit (E := E) s) as [[v u]|e| |]; cbn; auto. destruct u; [destruct w|]; exact I. Qed.
Ltac tres := repeat (eapply (tw_bind _ _ anyv); [apply tw_lift, same_resolve|intros ? ? _]).
Lemma tw_linear_rest attrs : snd f = true -> tw anyv
  ('(x1, y1, x2, y2) <- foldM linAttr ("0%", "0%", "100%", "0")%string attrs ;;
   g <- theGrad ;;
   let bbox := gradBox g in
   d0 <- lift (resolveUnit bbox x1 widthPercentage) ;;
   d1 <- lift (resolveUnit bbox y1 heightPercentage) ;;
   d2 <- lift (resolveUnit bbox x2 widthPercentage) ;;
   d3 <- lift (resolveUnit bbox y2 heightPercentage) ;;
   onGrad (E := E) (g_set_direction (Some (Linear d0 d1 d2 d3))))
  ('(x1, y1, x2, y2) <- foldM linAttr ("0%", "0%", "100%", "0")%string attrs ;;
   g <- theGrad ;;
   let bbox := gradBox g in
   d0 <- lift (resolveUnit bbox x1 widthPercentage) ;;
   d1 <- lift (resolveUnit bbox y1 heightPercentage) ;;
   d2 <- lift (resolveUnit bbox x2 widthPercentage) ;;
   d3 <- lift (resolveUnit bbox y2 heightPercentage) ;;
   onGrad (E := E) (g_set_direction (Some (Linear d0 d1 d2 d3)))).
Proof.
  intros Hf. eapply (tw_bind _ _ eq).
  - apply tw_fold; [|reflexivity]. intros [[[x1 y1] x2] y2] ? x <-. unfold linAttr.
    destruct (is x "id"). { eapply (tw_bind _ _ anyv); [apply tw_register, Hf|]. intros _ _ _. apply tw_ret. reflexivity. }
    do 4 (match goal with |- context [if ?b then ret _ else _] => destruct b; [apply tw_ret; reflexivity|] end).
    eapply (tw_bind _ _ anyv); [apply tw_gradAttr, Hf|]. intros _ _ _. apply tw_ret. reflexivity.
  - intros [[[x1 y1] x2] y2] ? <-. eapply (tw_bind _ _ anyv); [apply tw_theGrad, Hf|]. intros g g' _. cbv zeta. tres. apply tw_onGrad, Hf.
Qed.
Lemma tw_radial_rest attrs : snd f = true -> tw anyv
  ('(cx, cy, fx, fy, r, fr) <- foldM radAttr ("50%", "50%", None, None, "50%", "50%")%string attrs ;;
   let fx := match fx with Some s => s | None => cx end in
   let fy := match fy with Some s => s | None => cy end in
   g <- theGrad ;;
   let bbox := gradBox g in
   d0 <- lift (resolveUnit bbox cx widthPercentage) ;;
   d1 <- lift (resolveUnit bbox cy heightPercentage) ;;
   d2 <- lift (resolveUnit bbox fx widthPercentage) ;;
   d3 <- lift (resolveUnit bbox fy heightPercentage) ;;
   d4 <- lift (resolveUnit bbox r diagPercentage) ;;
   d5 <- lift (resolveUnit bbox fr diagPercentage) ;;
   onGrad (E := E) (g_set_direction (Some (Radial d0 d1 d2 d3 d4 d5))))
  ('(cx, cy, fx, fy, r, fr) <- foldM radAttr ("50%", "50%", None, None, "50%", "50%")%string attrs ;;
   let fx := match fx with Some s => s | None => cx end in
   let fy := match fy with Some s => s | None => cy end in
   g <- theGrad ;;
   let bbox := gradBox g in
   d0 <- lift (resolveUnit bbox cx widthPercentage) ;;
   d1 <- lift (resolveUnit bbox cy heightPercentage) ;;
   d2 <- lift (resolveUnit bbox fx widthPercentage) ;;
   d3 <- lift (resolveUnit bbox fy heightPercentage) ;;
   d4 <- lift (resolveUnit bbox r diagPercentage) ;;
   d5 <- lift (resolveUnit bbox fr diagPercentage) ;;
   onGrad (E := E) (g_set_direction (Some (Radial d0 d1 d2 d3 d4 d5)))).
Proof.
  intros Hf. eapply (tw_bind _ _ eq).
  - apply tw_fold; [|reflexivity]. intros [[[[[cx cy] fx] fy] r] fr] ? x <-. unfold radAttr.
    destruct (is x "id"). { eapply (tw_bind _ _ anyv); [apply tw_register, Hf|]. intros _ _ _. apply tw_ret. reflexivity. }
    do 6 (match goal with |- context [if ?b then ret _ else _] => destruct b; [apply tw_ret; reflexivity|] end).
    eapply (tw_bind _ _ anyv); [apply tw_gradAttr, Hf|]. intros _ _ _. apply tw_ret. reflexivity.
  - intros [[[[[cx cy] fx] fy] r] fr] ? <-. cbv zeta. eapply (tw_bind _ _ anyv); [apply tw_theGrad, Hf|]. intros g g' _. tres. apply tw_onGrad, Hf.
Qed.
Lemma tw_mask attrs : tw anyv (maskF (E := E) attrs) (maskF attrs).
Proof.
  unfold maskF. eapply (tw_bind _ _ anyv).
  - apply tw_fold; [|exact I]. intros a b x _. tup. unfold maskAttr. tws.
  - intros a b _. tup. apply tw_modify; intros n l c []; constructor; cbn; assumption.
Qed.
Lemma calm_collect : calmly collectPath.
Proof.
  intros n l c H. unfold collectPath. unfold bind at 1, gets. destruct (pc_path (c_pc c)) eqn:Hp; [exists c; auto|].
  unfold topStyle, bind. pose proof (j_stack _ _ _ _ H) as Hs. destruct (c_stack c) eqn:Hc; [discriminate|].
  destruct (c_inMask c); [destruct (c_mask c)|]; cbn; rewrite ?Hc; cbn; (eexists; split; [reflexivity|]); destruct H; constructor; cbn; try assumption; rewrite Hc; assumption.
Qed.
Lemma calm_addDef d : calmly (addDef d).
Proof. intros n l c []. eexists. split; [reflexivity|]. constructor; cbn; assumption. Qed.
Lemma calm_flush : calmly flushDefs.
Proof. intros n l c H. eexists. split; [reflexivity|]. destruct (c_curDef c); [exact H|]. destruct H. constructor; cbn; assumption. Qed.
Lemma draw_tw name df attrs : ~ List.In name context_names -> drawFuncs fuel name = Some df -> tw anyv (df attrs) (df attrs).
Proof.
  intros Hn. unfold drawFuncs, drawFunc. intros H.
  repeat match type of H with (if String.eqb name ?s then _ else _) = _ => destruct (String.eqb_spec name s) as [->|_]; [injection H as <-; first [exfalso; apply Hn; cbn; tauto|idtac]|] end; try discriminate.
  - apply tw_svg.
  - apply tw_ret. exact I.
  - apply tw_line.
  - apply tw_stop.
  - apply tw_rect.
  - apply tw_circle.
  - apply tw_circle.
  - apply tw_polyline.
  - apply tw_polygon.
  - apply tw_path.
  - apply tw_calm; apply calm_desc.
  - apply tw_calm; apply calm_title.
  - apply tw_mask.
Qed.
End Flags.

(** ** Tokens *)
(** what an element can be at a place, and where its content is *)
Definition ok_at (f : bool * bool) (name : string) : bool :=
  negb (fst f && String.eqb name "defs") && negb (snd f && is_grad_name name) && (negb (String.eqb name "use") || fst f && negb (snd f)).
Definition inner (f : bool * bool) (name : string) : bool * bool := (fst f || String.eqb name "defs", snd f || is_grad_name name).
Lemma J_defs f n l c : J f n l c -> J (true, snd f) n l (c_set_inDefs true c).
Proof. intros []. constructor; cbn in *; auto. Qed.
Lemma J_newGrad f n l c g : J f n l c -> J (fst f, true) n l (c_set_grad (Some (length (c_gheap c))) (c_set_gheap (c_gheap c ++ [g]) (c_set_inGrad true c))).
Proof.
  intros []. constructor; cbn in *; auto; try discriminate.
  - rewrite app_length. cbn. eapply Forall_impl; [|eassumption]. cbn. intros e He. lia.
  - intros p Hp. injection Hp as <-. rewrite app_length. cbn. lia.
Qed.
Definition NG (c : cursor) : gradient E := mkGrad None [] (sv_viewBox (c_svg c)) identity PadSpread ObjectBoundingBox.
Lemma draw_at f name df attrs : ok_at f name = true -> name <> "use"%string -> drawFuncs fuel name = Some df -> tw2 f (inner f name) anyv (df attrs) (df attrs).
Proof.
  intros Ho Hu Hd. unfold ok_at, inner in *. destruct (is_grad_name name) eqn:Hg.
  - assert (Hdn : String.eqb name "defs" = false) by (unfold is_grad_name in Hg; apply orb_prop in Hg as [Hg|Hg]; apply String.eqb_eq in Hg; subst; reflexivity).
    rewrite Hdn, orb_true_r, orb_false_r. unfold is_grad_name in Hg. apply orb_prop in Hg as [Hg|Hg]; apply String.eqb_eq in Hg; subst name; injection Hd as <-;
      intros n n' l l' c c' H H'; unfold linearGradientF, radialGradientF, newGrad; unfold bind at 1 4, modify at 1 4; unfold bind at 1 2 3 4, modify.
    + destruct (tw_linear_rest (fst f, true) attrs eq_refl n n' l l' _ _ (J_newGrad f n l c (NG c) H) (J_newGrad f n' l' c' (NG c') H')) as (d & D). exists d. exact D.
    + destruct (tw_radial_rest (fst f, true) attrs eq_refl n n' l l' _ _ (J_newGrad f n l c (NG c) H) (J_newGrad f n' l' c' (NG c') H')) as (d & D). exists d. exact D.
  - rewrite orb_false_r. destruct (String.eqb_spec name "defs") as [->|Hnd].
    + injection Hd as <-. rewrite orb_true_r. intros n n' l l' c c' H H'. exists []. rewrite !app_nil_r. cbn. split; [apply J_defs, H|]. split; [apply J_defs, H'|exact I].
    + rewrite orb_false_r. destruct f as [d g]. cbn [fst snd]. apply (draw_tw (d, g) name df attrs); [|exact Hd]. intros K. cbn in K. unfold is_grad_name in Hg. apply orb_false_elim in Hg as [G1 G2]. apply String.eqb_neq in G1, G2. intuition congruence.
Qed.
Lemma unknown_inner f name : drawFuncs (E := E) fuel name = None -> inner f name = f.
Proof.
  intros H. unfold inner, is_grad_name. unfold drawFuncs, drawFunc in H.
  repeat match type of H with (if String.eqb name ?s then _ else _) = _ => destruct (String.eqb name s); [discriminate|] end. cbn. rewrite !orb_false_r. destruct f; reflexivity.
Qed.
Lemma use_draws : drawFuncs (E := E) fuel "use" = Some (useF fuel). Proof. reflexivity. Qed.
Lemma stored_inner f name : ok_at f name = true -> fst f = true -> is_grad_name name = false -> snd f = false -> inner f name = f.
Proof.
  unfold ok_at, inner. intros H F1 G F2. rewrite F1, F2, G in *. cbn in H |- *. destruct f; cbn in *; subst. reflexivity.
Qed.
Lemma tw_read f name attrs : ok_at f name = true -> tw2 f (inner f name) anyv (readStartElement fuel name attrs) (readStartElement fuel name attrs).
Proof.
  intros Ho. destruct (fst f && negb (is_grad_name name || snd f)) eqn:Hs.
  - apply andb_prop in Hs as [S1 S2]. apply negb_true_iff, orb_false_elim in S2 as [S2 S3]. rewrite (stored_inner f name Ho S1 S2 S3).
    assert (K : calmly f (readStartElement fuel name attrs)); [|apply tw_calm; exact K].
    intros n l c H. unfold readStartElement. unfold bind at 1, gets. rewrite (j_defs _ _ _ _ H), (j_grad _ _ _ _ H), S1, S3.
    unfold is_grad_name in S2. rewrite orb_comm in S2. rewrite S2. cbn [orb]. change (true && negb false) with true.
    cbv zeta. unfold bind. destruct (negb (String.eqb (attrID attrs) "")); [destruct (calm_flush f n l c H) as (c1 & -> & H1)|destruct (calm_ret f n l c H) as (c1 & -> & H1)]; exact (calm_addDef f _ n l c1 H1).
  - assert (K : forall n l c, J f n l c -> readStartElement fuel name attrs c = (match drawFuncs fuel name with None => handleError (cannotProcess name)
      | Some df => err <- attempt (df attrs) ;; collectPath ;; match err with Some e => raise e | None => ret tt end end) c).
    { intros n l c H. unfold readStartElement. unfold bind at 1, gets. rewrite (j_defs _ _ _ _ H), (j_grad _ _ _ _ H).
      unfold is_grad_name in Hs. rewrite (orb_comm (String.eqb name "radialGradient")), Hs. reflexivity. }
    intros n n' l l' c c' H H'. rewrite (K n l c H), (K n' l' c' H'). revert n n' l l' c c' H H'. clear K.
    match goal with |- forall n n' l l' c c', _ -> _ -> exists d, _ /\ _ /\ same _ (snd (?m _)) _ => change (tw2 f (inner f name) anyv m m) end.
    destruct (drawFuncs fuel name) as [df|] eqn:Hd.
    + assert (Hu : name <> "use"%string).
      { intros ->. unfold ok_at in Ho. destruct (fst f), (snd f); cbn in Ho, Hs; discriminate. }
      eapply (tw_bind _ _ eq); [apply tw_attempt, draw_at; assumption|]. intros err ? <-. eapply (tw_bind _ _ anyv); [apply tw_calm; apply calm_collect|]. intros _ _ _. destruct err; [apply tw_raise|apply tw_ret; exact I].
    + rewrite (unknown_inner f name Hd). apply tw_handle.
Qed.
Lemma push_eq attrs (c : cursor) : pushStyle attrs c = (st <- pushed attrs ;; modify (fun c => c_set_stack (st :: c_stack c) c)) c.
Proof. unfold pushStyle, pushed, bind. destruct (topStyle c) as [c1 [t|e| |]]; reflexivity. Qed.
Lemma J_push f n l c st : J f n l c -> J f (S n) l (c_set_stack (st :: c_stack c) c).
Proof. intros []. constructor; cbn; try assumption. congruence. Qed.
Theorem start_same f name attrs : ok_at f name = true -> forall n n' l l' c c', J f n l c -> J f n' l' c' ->
  exists d, same anyv (snd (stepToken fuel (TStart name attrs) c)) (snd (stepToken fuel (TStart name attrs) c'))
    /\ pc_log (c_pc (fst (stepToken fuel (TStart name attrs) c))) = l ++ d /\ pc_log (c_pc (fst (stepToken fuel (TStart name attrs) c'))) = l' ++ d
    /\ (snd (stepToken fuel (TStart name attrs) c) = Ret tt -> J (inner f name) (S n) (l ++ d) (fst (stepToken fuel (TStart name attrs) c)) /\ J (inner f name) (S n') (l' ++ d) (fst (stepToken fuel (TStart name attrs) c'))).
Proof.
  intros Hn n n' l l' c c' Hc Hc'. cbn [stepToken]. destruct (tw_pushed f attrs n n' l l' c c' Hc Hc') as (d & D1 & D2 & D3).
  assert (P : forall c : cursor, (pushStyle attrs ;; readStartElement fuel name attrs) c = match pushed attrs c with
    | (c1, Ret st) => readStartElement fuel name attrs (c_set_stack (st :: c_stack c1) c1) | (c1, Err e) => (c1, Err e) | (c1, Panic) => (c1, Panic) | (c1, NoFuel) => (c1, NoFuel) end).
  { intros x. unfold bind at 1. rewrite push_eq. unfold bind at 1. destruct (pushed attrs x) as [c1 [st|e| |]]; reflexivity. }
  rewrite !P. clear P.
  destruct (pushed attrs c) as [c1 o], (pushed attrs c') as [c1' o']. cbn [fst snd] in D1, D2, D3.
  destruct o as [st|e| |], o' as [st'|e'| |]; cbn in D3; try contradiction; cbn [fst snd];
    try (exists d; split; [exact D3|split; [exact (j_log _ _ _ _ D1)|split; [exact (j_log _ _ _ _ D2)|discriminate]]]).
  destruct (tw_read f name attrs Hn (S n) (S n') (l ++ d) (l' ++ d) _ _ (J_push _ _ _ _ st D1) (J_push _ _ _ _ st' D2)) as (d' & E1 & E2 & E3).
  exists (d ++ d'). rewrite !app_assoc. split; [exact E3|]. split; [exact (j_log _ _ _ _ E1)|]. split; [exact (j_log _ _ _ _ E2)|]. intros _. split; assumption.
Qed.
Lemma end_ok f name n l c : ok_at f name = true -> J (inner f name) (S n) l c -> exists c', stepToken fuel (TEnd name) c = (c', Ret tt) /\ J f n l c'.
Proof.
  intros Ho H. cbn [stepToken]. unfold endElement, popStyle. unfold bind at 1. pose proof (j_stack _ _ _ _ H) as Hs. destruct (c_stack c) as [|s r] eqn:Hc; [discriminate|].
  assert (H1 : J (inner f name) n l (c_set_stack r c)) by (destruct H; constructor; cbn; try assumption; cbn in Hs; congruence). clear H.
  unfold ok_at in Ho. unfold inner, is_grad_name in *. destruct f as [d g]; cbn [fst snd] in *.
  destruct (String.eqb_spec name "g") as [->|_].
  { cbn in H1. rewrite !orb_false_r in H1. unfold bind, gets. destruct (c_inDefs _); [exact (calm_addDef _ _ n l _ H1)|exact (calm_ret _ n l _ H1)]. }
  destruct (String.eqb_spec name "mask") as [->|_].
  { cbn in H1. rewrite !orb_false_r in H1. unfold bind, gets. destruct (c_mask _) as [m|]; (eexists; split; [reflexivity|]; destruct H1; constructor; cbn; assumption). }
  destruct (String.eqb_spec name "title") as [->|_].
  { cbn in H1. rewrite !orb_false_r in H1. eexists. split; [reflexivity|]. destruct H1; constructor; cbn; try assumption. discriminate. }
  destruct (String.eqb_spec name "desc") as [->|_].
  { cbn in H1. rewrite !orb_false_r in H1. eexists. split; [reflexivity|]. destruct H1; constructor; cbn; try assumption. discriminate. }
  destruct (String.eqb_spec name "defs") as [->|_].
  { cbn in H1, Ho. rewrite !orb_false_r in H1. destruct d; [discriminate|]. cbn in H1. unfold bind. destruct (calm_flush _ n l _ H1) as (c1 & -> & H2).
    eexists. split; [reflexivity|]. destruct H2; constructor; cbn in *; auto. }
  rewrite orb_false_r in H1. rewrite (orb_comm (String.eqb name "radialGradient")). destruct (String.eqb name "linearGradient" || String.eqb name "radialGradient").
  { destruct g; [rewrite andb_false_r in Ho; discriminate|]. cbn in H1. eexists. split; [reflexivity|]. destruct H1; constructor; cbn in *; auto; try discriminate. }
  rewrite orb_false_r in H1. exact (calm_ret _ n l _ H1).
Qed.
Lemma append_last l s : l <> [] -> exists l', appendLast l s = Ret l' /\ l' <> [].
Proof.
  intros H. unfold appendLast. destruct (rev l) as [|x r] eqn:Hr.
  - exfalso. apply H. rewrite <- (rev_involutive l), Hr. reflexivity.
  - eexists. split; [reflexivity|]. intros K. apply app_eq_nil in K as [_ K]. discriminate.
Qed.
Lemma text_ok f s n l c : J f n l c -> exists c', stepToken fuel (TChar s) c = (c', Ret tt) /\ J f n l c'.
Proof.
  intros H. cbn [stepToken]. unfold charData. unfold bind at 1, gets.
  assert (K : exists c1, (if c_inTitle c then l <- lift (appendLast (sv_titles (c_svg c)) s) ;; onSvg (sv_set_titles l) else ret tt) c = (c1, Ret tt) /\ J f n l c1
    /\ sv_descs (c_svg c1) = sv_descs (c_svg c) /\ c_inDesc c1 = c_inDesc c).
  { destruct (c_inTitle c) eqn:Ht; [|exists c; auto]. destruct (append_last _ s (j_title _ _ _ _ H Ht)) as (t & T1 & T2). unfold bind, lift. rewrite T1.
    eexists. split; [reflexivity|]. split; [|split; reflexivity]. destruct H. constructor; cbn; auto. }
  destruct K as (c1 & K1 & K2 & K3 & K4). unfold bind at 1. rewrite K1. destruct (c_inDesc c) eqn:Hd; [|exists c1; auto].
  destruct (append_last (sv_descs (c_svg c)) s (j_desc _ _ _ _ H Hd)) as (t & T1 & T2). unfold bind, lift. rewrite T1.
  eexists. split; [reflexivity|]. destruct K2. constructor; cbn; auto.
Qed.

(** ** The document *)
Definition elt : Type := string * list attr.
Definition item : Type := (bool * bool) * elt.
Definition out : bool * bool := (false, false).
(** a state to start an element from *)
Definition canon (f : bool * bool) : cursor :=
  c_set_inDefs (fst f) (c_set_inGrad (snd f) (if snd f then c_set_grad (Some 0) (c_set_gheap [NG (cursor0 md)] (cursor0 md)) else cursor0 md)).
Lemma J_canon f : J f 0 [] (canon f).
Proof. destruct f as [d [|]]; constructor; cbn; auto; try discriminate. intros p Hp. injection Hp as <-. auto. Qed.
Lemma J_start : J out 0 [] (cursor0 (E := E) md).
Proof. constructor; cbn; auto; discriminate. Qed.
Fixpoint items (f : bool * bool) (n : node) : list item :=
  match n with
  | Elem name attrs kids => (f, (name, attrs)) :: flat_map (items (inner f name)) kids
  | Chars _ | Misc => []
  end.
Definition okit (it : item) : Prop := ok_at (fst it) (fst (snd it)) = true.
(** what one element says *)
Definition one (it : item) : cursor * outcome unit := stepToken fuel (TStart (fst (snd it)) (snd (snd it))) (canon (fst it)).
Definition told (it : item) (o : outcome unit) (d : list string) : Prop := same anyv (snd (one it)) o /\ pc_log (c_pc (fst (one it))) = d.
Lemma start_told (it : item) n l c : okit it -> J (fst it) n l c ->
  exists d c' o, told it o d /\ stepToken fuel (TStart (fst (snd it)) (snd (snd it))) c = (c', o) /\ pc_log (c_pc c') = l ++ d /\ (o = Ret tt -> J (inner (fst it) (fst (snd it))) (S n) (l ++ d) c').
Proof.
  intros Hn H. destruct it as [f [name attrs]]. unfold okit in Hn. cbn [fst snd] in *. destruct (start_same f name attrs Hn 0 n [] l _ c (J_canon f) H) as (d & D1 & D2 & D3 & D4).
  exists d, (fst (stepToken fuel (TStart name attrs) c)), (snd (stepToken fuel (TStart name attrs) c)).
  split; [split; [exact D1|exact D2]|]. split; [apply surjective_pairing|]. split; [exact D3|]. intros Ho. rewrite Ho in D1.
  destruct (snd (stepToken fuel (TStart name attrs) (canon f))) as [[]|e| |] eqn:Hs; cbn in D1; try contradiction. apply D4. reflexivity.
Qed.
(** a list of elements: all fine, with these messages, or one is not *)
Inductive run : list item -> outcome unit -> list string -> Prop :=
| run_nil : run [] (Ret tt) []
| run_ok el els o d ds : told el (Ret tt) d -> run els o ds -> run (el :: els) o (d ++ ds)
| run_bad el els o d : told el o d -> o <> Ret tt -> run (el :: els) o d.
Lemma run_app a b o da d : run a (Ret tt) da -> run b o d -> run (a ++ b) o (da ++ d).
Proof.
  intros H. remember (Ret tt) as r eqn:Hr. induction H as [|el els o' d' ds T R IH|el els o' d' T N]; intros Hb; cbn [app].
  - exact Hb.
  - rewrite <- app_assoc. apply run_ok; [exact T|]. apply IH; assumption.
  - congruence.
Qed.
Lemma run_stop a b o d : run a o d -> o <> Ret tt -> run (a ++ b) o d.
Proof. induction 1 as [|el els o' d' ds T R IH|el els o' d' T N]; intros Ho; cbn [app]; [congruence|apply run_ok; auto|apply run_bad; auto]. Qed.
Definition node_runs (nd : node) : Prop := forall f, Forall okit (items f nd) -> forall n l c, J f n l c ->
  exists d c' o, run (items f nd) o d /\ mapM (stepToken fuel) (tokens nd) c = (c', o) /\ pc_log (c_pc c') = l ++ d /\ (o = Ret tt -> J f n (l ++ d) c').
Lemma mapM_cat {X} (f : X -> C unit) a b c : mapM f (a ++ b) c = (mapM f a ;; mapM f b) c.
Proof. revert c. induction a as [|x a IH]; intros c; cbn [app mapM]; [reflexivity|]. unfold bind in *. destruct (f x c) as [c1 [[]|e| |]]; auto. Qed.
Lemma forest_runs ns : Forall node_runs ns -> forall f, Forall okit (flat_map (items f) ns) -> forall n l c, J f n l c ->
  exists d c' o, run (flat_map (items f) ns) o d /\ mapM (stepToken fuel) (flat_map tokens ns) c = (c', o) /\ pc_log (c_pc c') = l ++ d /\ (o = Ret tt -> J f n (l ++ d) c').
Proof.
  intros HF f. induction HF as [|x ns Hx _ IH]; cbn [flat_map]; intros Hf n l c H.
  - exists [], c, (Ret tt). split; [constructor|]. split; [reflexivity|]. rewrite app_nil_r. split; [exact (j_log _ _ _ _ H)|auto].
  - apply Forall_app in Hf as [F1 F2]. destruct (Hx f F1 n l c H) as (d & c1 & o & R1 & M1 & L1 & J1). rewrite mapM_cat. unfold bind. rewrite M1.
    destruct o as [[]|e| |].
    + destruct (IH F2 n _ c1 (J1 eq_refl)) as (d2 & c2 & o2 & R2 & M2 & L2 & J2). exists (d ++ d2), c2, o2. rewrite !app_assoc.
      split; [eapply run_app; eassumption|]. split; [exact M2|]. split; [exact L2|exact J2].
    + exists d, c1, (Err e). split; [apply run_stop; [exact R1|discriminate]|]. split; [reflexivity|]. split; [exact L1|discriminate].
    + exists d, c1, Panic. split; [apply run_stop; [exact R1|discriminate]|]. split; [reflexivity|]. split; [exact L1|discriminate].
    + exists d, c1, NoFuel. split; [apply run_stop; [exact R1|discriminate]|]. split; [reflexivity|]. split; [exact L1|discriminate].
Qed.
Lemma all_runs : forall nd, node_runs nd.
Proof.
  fix IH 1. intros [name attrs kids|s|].
  - assert (K : Forall node_runs kids) by (induction kids as [|x kids IHk]; constructor; [apply IH|exact IHk]).
    clear IH. unfold node_runs. cbn [items tokens]. intros f Hf n l c H. inversion Hf as [|? ? F1 F2]; subst.
    destruct (start_told (f, (name, attrs)) n l c F1 H) as (d & c1 & o & T & M1 & L1 & J1). cbn [fst snd] in M1, J1. cbn [mapM]. unfold bind at 1. rewrite M1.
    assert (B : o <> Ret tt -> run ((f, (name, attrs)) :: flat_map (items (inner f name)) kids) o d) by (intros; apply run_bad; assumption).
    destruct o as [[]|e| |]; [|exists d, c1; eexists; (split; [apply B; discriminate|]); split; [reflexivity|]; split; [exact L1|discriminate]..].
    destruct (forest_runs kids K _ F2 (S n) _ c1 (J1 eq_refl)) as (d2 & c2 & o2 & R2 & M2 & L2 & J2). rewrite mapM_cat. unfold bind. rewrite M2.
    assert (R : run ((f, (name, attrs)) :: flat_map (items (inner f name)) kids) o2 (d ++ d2)) by (apply run_ok; assumption).
    rewrite <- app_assoc in L2, J2.
    destruct o2 as [[]|e| |]; [|exists (d ++ d2), c2; eexists; (split; [exact R|]); split; [reflexivity|]; split; [exact L2|discriminate]..].
    destruct (end_ok f name n _ c2 F1 (J2 eq_refl)) as (c3 & M3 & J3). cbn [mapM]. unfold bind. rewrite M3. exists (d ++ d2), c3, (Ret tt).
    split; [exact R|]. split; [reflexivity|]. split; [exact (j_log _ _ _ _ J3)|auto].
  - intros f _ n l c H. destruct (text_ok f s n l c H) as (c' & M & H'). exists [], c', (Ret tt). rewrite app_nil_r. cbn [tokens mapM]. unfold bind. rewrite M.
    split; [constructor|]. split; [reflexivity|]. split; [exact (j_log _ _ _ _ H')|auto].
  - intros f _ n l c H. exists [], c, (Ret tt). rewrite app_nil_r. split; [constructor|]. split; [reflexivity|]. split; [exact (j_log _ _ _ _ H)|auto].
Qed.
Theorem document_runs ns : Forall okit (flat_map (items out) ns) -> exists d (c : cursor) o, run (flat_map (items out) ns) o d
  /\ mapM (stepToken fuel) (flat_map tokens ns) (cursor0 md) = (c, o) /\ pc_log (c_pc c) = d.
Proof.
  intros H. destruct (forest_runs ns (proj2 (Forall_forall _ _) (fun nd _ => all_runs nd)) out H 0 [] _ J_start) as (d & c & o & R & M & L & _). exists d, c, o. auto.
Qed.
Lemma told_fun el o o' d d' : told el o d -> told el o' d' -> o = o' /\ d = d'.
Proof.
  intros [H1 H2] [H1' H2']. split; [|congruence]. destruct (snd (one el)) as [[]|e| |], o as [[]|x| |], o' as [[]|y| |]; cbn in *; try contradiction; congruence.
Qed.
Lemma run_fun els o d : run els o d -> forall o' d', run els o' d' -> o = o' /\ d = d'.
Proof.
  induction 1 as [|el els o d ds T R IH|el els o d T N]; intros o' d' H'; inversion H'; subst; auto.
  - match goal with T' : told el (Ret tt) ?x, R' : run els _ _ |- _ => destruct (told_fun _ _ _ _ _ T T') as [_ ->], (IH _ _ R') as [-> ->] end. auto.
  - match goal with T' : told el o' d' |- _ => destruct (told_fun _ _ _ _ _ T T') as [<- _] end. congruence.
  - match goal with T' : told el (Ret tt) _ |- _ => destruct (told_fun _ _ _ _ _ T T') as [-> _] end. congruence.
  - match goal with T' : told el o' d' |- _ => exact (told_fun _ _ _ _ _ T T') end.
Qed.
Lemma seen_elements ns : flat_map elements_of ns <> [] -> seenTag (flat_map tokens ns) = true.
Proof.
  induction ns as [|[name attrs kids|s|] ns IH]; cbn; [congruence|reflexivity|exact IH..].
Qed.
Definition outcome_of (err : option goerr) : outcome unit := match err with None => Ret tt | Some e => Err e end.
Theorem document_says ns err log : Forall okit (flat_map (items out) ns) -> flat_map elements_of ns <> [] -> (says_of E fuel md ns err log <-> run (flat_map (items out) ns) (outcome_of err) log).
Proof.
  intros Hn Hne. destruct (document_runs ns Hn) as (d & c & o & R & M & L). unfold says_of, parse. rewrite M, (seen_elements ns Hne), L. split.
  - intros (s & H). destruct o as [[]|e| |]; try discriminate; injection H as _ <- <-; exact R.
  - intros H. destruct (run_fun _ _ _ R _ _ H) as [-> ->]. destruct err; eexists; reflexivity.
Qed.

(** ** One element by itself *)
Definition plain (el : elt) : item := (out, el).
Lemma plain_inner name : ~ List.In name context_names -> inner out name = out.
Proof.
  intros H. unfold inner, is_grad_name, out. cbn [fst snd orb]. cbn in H.
  destruct (String.eqb_spec name "defs"), (String.eqb_spec name "linearGradient"), (String.eqb_spec name "radialGradient"); subst; try reflexivity; exfalso; tauto.
Qed.
Lemma plain_ok el : ~ List.In (fst el) context_names -> okit (plain el).
Proof. intros H. unfold okit, plain, ok_at, out. cbn [fst snd andb negb orb]. rewrite orb_false_r. apply negb_true_iff, String.eqb_neq. intros K. apply H. rewrite K. cbn. tauto. Qed.
Lemma plain_items : forall nd, no_context (elements_of nd) -> items out nd = map plain (elements_of nd).
Proof.
  fix IH 1. intros [name attrs kids|s|]; [|reflexivity..]. unfold no_context. cbn [elements_of items map]. intros H. inversion H as [|? ? H1 H2]; subst. cbn [fst] in H1.
  rewrite (plain_inner name H1). apply (f_equal (cons (plain (name, attrs)))). clear H H1. induction kids as [|x kids IHk]; [reflexivity|]. cbn [flat_map] in *. apply Forall_app in H2 as [A B]. rewrite map_app. apply f_equal2; [apply IH, A|apply IHk, B].
Qed.
Lemma plain_doc ns : no_context (flat_map elements_of ns) -> flat_map (items out) ns = map plain (flat_map elements_of ns).
Proof.
  unfold no_context. induction ns as [|x ns IH]; cbn [flat_map]; [reflexivity|]. intros H. apply Forall_app in H as [A B]. rewrite map_app. apply f_equal2; [apply plain_items, A|apply IH, B].
Qed.
Lemma plain_all els : no_context els -> Forall okit (map plain els).
Proof. unfold no_context. induction 1; cbn [map]; constructor; auto. apply plain_ok. assumption. Qed.
Lemma plain_says ns err log : no_context (flat_map elements_of ns) -> flat_map elements_of ns <> [] -> (says_of E fuel md ns err log <-> run (map plain (flat_map elements_of ns)) (outcome_of err) log).
Proof. intros H Hne. rewrite document_says by (rewrite ?plain_doc by assumption; first [apply plain_all; assumption|assumption]). rewrite plain_doc by assumption. reflexivity. Qed.
Lemma itself_says el err log : ~ List.In (fst el) context_names -> (says_of E fuel md (by_itself el) err log <-> told (plain el) (outcome_of err) log).
Proof.
  intros Hn. assert (Q : flat_map elements_of (by_itself el) = [el]) by (destruct el; reflexivity).
  rewrite plain_says; rewrite Q; [|constructor; [exact Hn|constructor]|discriminate]. cbn [map]. split.
  - intros H. inversion H as [|? ? ? d ds T R|? ? ? ? T N]; subst; [|exact T]. inversion R; subst. rewrite app_nil_r. destruct err; [discriminate|exact T].
  - intros T. destruct err as [e|].
    + apply run_bad; [exact T|discriminate].
    + rewrite <- (app_nil_r log). apply run_ok; [exact T|constructor].
Qed.
Section Doc.
Context (ns : list node) (Hn : no_context (flat_map elements_of ns)) (Hne : flat_map elements_of ns <> []).
Lemma run_all els ls : no_context els -> Forall2 (fun el l => says_of E fuel md (by_itself el) None l) els ls -> run (map plain els) (Ret tt) (concat ls).
Proof.
  intros Hc H. induction H as [|el l els ls H _ IH]; cbn [concat map]; [constructor|]. inversion Hc; subst. apply run_ok; [apply itself_says in H; assumption|auto].
Qed.
Lemma run_each : forall els d, no_context els -> run (map plain els) (Ret tt) d -> exists ls, Forall2 (fun el l => says_of E fuel md (by_itself el) None l) els ls /\ d = concat ls.
Proof.
  induction els as [|el els IH]; cbn [map]; intros d Hc H; inversion H; subst.
  - exists []. split; [constructor|reflexivity].
  - inversion Hc; subst. match goal with R : run (map plain els) _ _ |- _ => destruct (IH _ ltac:(assumption) R) as (ls & L1 & ->) end. eexists (_ :: ls). split; [|cbn [concat]; reflexivity]. constructor; [|exact L1]. apply itself_says; assumption.
  - congruence.
Qed.
Theorem local_accepted log : says_of E fuel md ns None log <-> exists ls, Forall2 (fun el l => says_of E fuel md (by_itself el) None l) (flat_map elements_of ns) ls /\ log = concat ls.
Proof.
  rewrite plain_says by assumption. cbn [outcome_of]. split.
  - intros H. exact (run_each _ _ Hn H).
  - intros (ls & H & ->). exact (run_all _ _ Hn H).
Qed.
Lemma first_bad e : forall els log, no_context els -> run (map plain els) (Err e) log -> exists pre el post ls l,
  els = pre ++ el :: post /\ Forall2 (fun el l => says_of E fuel md (by_itself el) None l) pre ls
  /\ says_of E fuel md (by_itself el) (Some e) l /\ log = concat ls ++ l.
Proof.
  induction els as [|el els IH]; cbn [map]; intros log Hc H; inversion H; subst; inversion Hc; subst.
  - match goal with R : run (map plain els) _ _ |- _ => destruct (IH _ ltac:(assumption) R) as (pre & x & post & ls & l & -> & L1 & L2 & ->) end.
    eexists (el :: pre), x, post, (_ :: ls), l. split; [reflexivity|]. split; [constructor; [apply itself_says; eassumption|exact L1]|]. split; [exact L2|]. cbn [concat]. rewrite app_assoc. reflexivity.
  - eexists [], el, els, [], _. split; [reflexivity|]. split; [constructor|]. split; [apply itself_says; eassumption|reflexivity].
Qed.
Theorem local_refused e log : says_of E fuel md ns (Some e) log <-> exists pre el post ls l,
  flat_map elements_of ns = pre ++ el :: post /\ Forall2 (fun el l => says_of E fuel md (by_itself el) None l) pre ls
  /\ says_of E fuel md (by_itself el) (Some e) l /\ log = concat ls ++ l.
Proof.
  rewrite plain_says by assumption. cbn [outcome_of]. split.
  - apply first_bad, Hn.
  - intros (pre & el & post & ls & l & Q & L1 & L2 & ->). rewrite Q in *. unfold no_context in Hn. apply Forall_app in Hn as [N1 N2]. inversion N2; subst.
    rewrite map_app. cbn [map]. eapply run_app; [exact (run_all _ _ N1 L1)|]. apply run_bad; [|discriminate]. apply itself_says in L2; assumption.
Qed.
End Doc.
Theorem accepts_each ns : no_context (flat_map elements_of ns) -> flat_map elements_of ns <> [] ->
  (accepts E fuel md ns <-> Forall (fun el => accepts E fuel md (by_itself el)) (flat_map elements_of ns)).
Proof.
  intros Hn Hne. unfold accepts. split.
  - intros (log & H). apply local_accepted in H as (ls & H & _); [|assumption..]. clear -H. induction H; constructor; eauto.
  - intros H. assert (K : exists ls, Forall2 (fun el l => says_of E fuel md (by_itself el) None l) (flat_map elements_of ns) ls).
    { clear -H. induction H as [|el els (l & H) _ (ls & IH)]; [exists []; constructor|]. exists (l :: ls). constructor; assumption. }
    destruct K as (ls & K). exists (concat ls). apply local_accepted; [assumption..|]. eauto.
Qed.
Theorem accepts_same ns ms : (forall el, List.In el (flat_map elements_of ns) <-> List.In el (flat_map elements_of ms)) -> no_context (flat_map elements_of ns) -> flat_map elements_of ns <> [] ->
  (accepts E fuel md ns <-> accepts E fuel md ms).
Proof.
  intros Hs Hn Hne.
  assert (Hm : no_context (flat_map elements_of ms)) by (unfold no_context in *; rewrite Forall_forall in *; intros el H; apply Hn, Hs, H).
  assert (Hme : flat_map elements_of ms <> []).
  { destruct (flat_map elements_of ns) as [|el els]; [congruence|]. intros K. rewrite K in Hs. destruct (proj1 (Hs el) (or_introl eq_refl)). }
  rewrite !accepts_each by assumption. rewrite !Forall_forall. split; intros H el Hel; apply H, Hs, Hel.
Qed.


(** ** Branches *)
Definition good (it : item) : Prop := exists d, told it (Ret tt) d.
Lemma run_good its : (exists d, run its (Ret tt) d) <-> Forall good its.
Proof.
  split.
  - intros (d & H). remember (Ret tt) as o eqn:Ho. induction H as [|el els o d ds T R IH|el els o d T N]; [constructor|constructor; [exists d; exact T|auto]|congruence].
  - induction 1 as [|it its (d & H) _ (ds & IH)]; [exists []; constructor|]. exists (d ++ ds). apply run_ok; assumption.
Qed.
Lemma good_or it : exists o d, told it o d.
Proof. exists (snd (one it)), (pc_log (c_pc (fst (one it)))). split; [destruct (snd (one it)); cbn; auto; exact I|reflexivity]. Qed.
Fixpoint bitems (f : bool * bool) (b : list elt) : list item :=
  match b with [] => [] | el :: r => (f, el) :: bitems (inner f (fst el)) r end.
Definition after (f : bool * bool) (b : list elt) : bool * bool := fold_left (fun f el => inner f (fst el)) b f.
Lemma bitems_snoc b el : forall f, bitems f (b ++ [el]) = bitems f b ++ [(after f b, el)].
Proof. induction b as [|x b IH]; intros f; cbn; [reflexivity|]. rewrite IH. reflexivity. Qed.
Lemma after_snoc b el f : after f (b ++ [el]) = inner (after f b) (fst el).
Proof. unfold after. rewrite fold_left_app. reflexivity. Qed.
Lemma branch_items b : forall f, flat_map (items f) (branch_doc b) = bitems f b.
Proof. induction b as [|[name attrs] b IH]; intros f; cbn; [reflexivity|]. rewrite app_nil_r, IH. reflexivity. Qed.
Lemma wn_items : forall nd d g, well_nested d g nd = true <-> Forall okit (items (d, g) nd).
Proof.
  fix IH 1. intros [name attrs kids|s|] d g; [|split; [constructor|reflexivity]..]. cbn [well_nested items].
  assert (K : forall d g, forallb (well_nested d g) kids = true <-> Forall okit (flat_map (items (d, g)) kids)).
  { clear -IH. intros d g. induction kids as [|x kids IHk]; cbn [forallb flat_map]; [split; [constructor|reflexivity]|].
    rewrite andb_true_iff, Forall_app, IHk, IH. reflexivity. }
  clear IH. rewrite andb_true_iff, K. split.
  - intros [A B]. constructor; [exact A|exact B].
  - intros H. inversion H; subst. split; assumption.
Qed.
Lemma wn_doc ns : forallb (well_nested false false) ns = true <-> Forall okit (flat_map (items out) ns).
Proof. induction ns as [|x ns IH]; cbn [forallb flat_map]; [split; [constructor|reflexivity]|]. rewrite andb_true_iff, Forall_app, IH, wn_items. reflexivity. Qed.
(** the elements and their branches: an element is the end of its branch, and the rest of the branch has been seen *)
Inductive ok_br : list item -> list item -> list (list elt) -> Prop :=
| br_nil seen : ok_br seen [] []
| br_cons seen it its b bs anc : bitems out b = anc ++ [it] -> incl anc seen -> ok_br (seen ++ [it]) its bs -> ok_br seen (it :: its) (b :: bs).
Lemma br_app : forall its its' bs bs' seen, ok_br seen its bs -> ok_br (seen ++ its) its' bs' -> ok_br seen (its ++ its') (bs ++ bs').
Proof.
  intros its its' bs bs' seen H. induction H as [|seen it its b bs anc A I H IH]; cbn [app].
  - rewrite app_nil_r. auto.
  - intros K. eapply br_cons; [exact A|exact I|]. apply IH. rewrite <- app_assoc. exact K.
Qed.
Lemma br_node : forall nd A seen, incl (bitems out A) seen -> ok_br seen (items (after out A) nd) (branches_of A nd).
Proof.
  fix IH 1. intros [name attrs kids|s|] A seen HA; [|constructor..]. cbn [items branches_of].
  eapply br_cons; [apply bitems_snoc|exact HA|]. rewrite <- (after_snoc A (name, attrs)).
  assert (HA' : incl (bitems out (A ++ [(name, attrs)])) (seen ++ [(after out A, (name, attrs))])) by (rewrite bitems_snoc; apply incl_app; [apply incl_appl, HA|apply incl_appr, incl_refl]).
  assert (K : forall A' seen', incl (bitems out A') seen' -> ok_br seen' (flat_map (items (after out A')) kids) (flat_map (branches_of A') kids)).
  { clear -IH. induction kids as [|x kids IHk]; intros A' seen' HA'; cbn [flat_map]; [constructor|]. apply br_app; [apply IH, HA'|]. apply IHk. apply incl_appl, HA'. }
  exact (K _ _ HA').
Qed.
Lemma br_doc ns : forall seen, ok_br seen (flat_map (items out) ns) (flat_map (branches_of []) ns).
Proof. induction ns as [|x ns IH]; intros seen; cbn [flat_map]; [constructor|]. apply br_app; [|apply IH]. apply (br_node x [] seen). intros ? []. Qed.
Lemma br_incl seen its bs : ok_br seen its bs -> Forall (fun b => incl (bitems out b) (seen ++ its) /\ b <> []) bs.
Proof.
  induction 1 as [|seen it its b bs anc A I H IH]; constructor.
  - split; [|intros ->; destruct anc; discriminate]. rewrite A. apply incl_app; [apply incl_appl, I|]. apply incl_appr. intros x [<-|[]]. left. reflexivity.
  - eapply Forall_impl; [|exact IH]. intros b' [B1 B2]. rewrite <- app_assoc in B1. auto.
Qed.
Definition acc (b : list elt) : Prop := Forall good (bitems out b).
Lemma br_acc seen its bs : ok_br seen its bs -> Forall good seen -> (Forall good its <-> Forall acc bs).
Proof.
  induction 1 as [|seen it its b bs anc A I H IH]; intros Hs; [split; constructor|].
  assert (Ha : Forall good anc) by (rewrite Forall_forall in *; auto).
  assert (Hb : acc b <-> good it).
  { unfold acc. rewrite A, Forall_app. split; [intros [_ K]; inversion K; assumption|]. intros K. split; [exact Ha|constructor; [exact K|constructor]]. }
  assert (Hi : good it -> (Forall good its <-> Forall acc bs)) by (intros K; apply IH, Forall_app; split; [exact Hs|constructor; [exact K|constructor]]).
  split; intros K; inversion K; subst; constructor; tauto.
Qed.
Lemma br_bad seen its bs e : ok_br seen its bs -> Forall good seen ->
  ((exists d, run its (Err e) d) <-> exists pre b post, bs = pre ++ b :: post /\ Forall acc pre /\ exists d, run (bitems out b) (Err e) d).
Proof.
  induction 1 as [|seen it its b bs anc A I H IH]; intros Hs.
  - split; [intros (d & K); inversion K|]. intros (pre & b & post & K & _). destruct pre; discriminate.
  - assert (Ha : Forall good anc) by (rewrite Forall_forall in *; auto).
    destruct (good_or it) as (o & t & T).
    assert (D : o = Ret tt \/ o <> Ret tt) by (destruct o as [[]|x| |]; first [left; reflexivity|right; discriminate]). destruct D as [->|D].
    { assert (G : good it) by (exists t; exact T). assert (Hb : acc b) by (unfold acc; rewrite A; apply Forall_app; split; [exact Ha|constructor; [exact G|constructor]]).
      specialize (IH ltac:(apply Forall_app; split; [exact Hs|constructor; [exact G|constructor]])). split.
      - intros (d & R). inversion R as [|? ? ? ? ? T' R'|? ? ? ? T' N']; subst; [|destruct (told_fun _ _ _ _ _ T T') as [K _]; discriminate].
        destruct (proj1 IH (ex_intro _ _ R')) as (pre & b' & post & -> & P1 & P2). exists (b :: pre), b', post. split; [reflexivity|]. split; [constructor; assumption|exact P2].
      - intros (pre & b' & post & Q & P1 & d & P2). destruct pre as [|p pre]; cbn [app] in Q; injection Q as -> ->.
        + apply run_good in Hb as (d' & Hb). destruct (run_fun _ _ _ P2 _ _ Hb). discriminate.
        + inversion P1; subst. destruct (proj2 IH) as (ds & R); [exists pre, b', post; eauto|]. exists (t ++ ds). apply run_ok; assumption. }
    assert (Hb : exists d, run (bitems out b) o d) by (apply run_good in Ha as (d & Ha); rewrite A; exists (d ++ t); apply run_app; [exact Ha|apply run_bad; assumption]).
    assert (Hi : run (it :: its) o t) by (apply run_bad; assumption). destruct Hb as (d' & Hb). split.
    + intros (d & R). destruct (run_fun _ _ _ R _ _ Hi) as [Q _]. exists [], b, bs. split; [reflexivity|]. split; [constructor|]. exists d'. rewrite Q. exact Hb.
    + intros (pre & b' & post & Q & P1 & d & P2). destruct pre as [|p pre]; cbn [app] in Q; injection Q as Q1 Q2; subst.
      * destruct (run_fun _ _ _ P2 _ _ Hb) as [K _]. exists t. rewrite K. exact Hi.
      * exfalso. inversion P1 as [|? ? P0 _]; subst. apply run_good in P0 as (d0 & P0). destruct (run_fun _ _ _ P0 _ _ Hb). congruence.
Qed.
Lemma acc_says b : b <> [] -> Forall okit (bitems out b) -> (accepts E fuel md (branch_doc b) <-> acc b).
Proof.
  intros Hne Ho. unfold accepts, acc. rewrite <- run_good, <- branch_items. rewrite <- branch_items in Ho. assert (Hne' : flat_map elements_of (branch_doc b) <> []) by (destruct b as [|[]]; [congruence|discriminate]).
  split; intros (log & H); exists log; apply (document_says _ None) in H || apply (document_says _ None); assumption.
Qed.
Lemma bad_says b e : b <> [] -> Forall okit (bitems out b) -> (refuses E fuel md (branch_doc b) e <-> exists d, run (bitems out b) (Err e) d).
Proof.
  intros Hne Ho. unfold refuses. rewrite <- branch_items. rewrite <- branch_items in Ho. assert (Hne' : flat_map elements_of (branch_doc b) <> []) by (destruct b as [|[]]; [congruence|discriminate]).
  split; intros (log & H); exists log; apply (document_says _ (Some e)) in H || apply (document_says _ (Some e)); assumption.
Qed.
Section Branches.
Context (ns : list node) (Hw : forallb (well_nested false false) ns = true) (Hne : flat_map elements_of ns <> []).
Lemma br_ok : Forall (fun b => b <> [] /\ Forall okit (bitems out b)) (flat_map (branches_of []) ns).
Proof.
  eapply Forall_impl; [|exact (br_incl _ _ _ (br_doc ns []))]. cbn [app]. intros b [B1 B2]. split; [exact B2|]. apply wn_doc in Hw. rewrite Forall_forall in *. auto.
Qed.
Theorem branches_accepted : accepts E fuel md ns <-> Forall (fun b => accepts E fuel md (branch_doc b)) (flat_map (branches_of []) ns).
Proof.
  pose proof (proj1 (wn_doc ns) Hw) as Ho. transitivity (Forall acc (flat_map (branches_of []) ns)).
  - rewrite <- (br_acc _ _ _ (br_doc ns []) (Forall_nil _)), <- run_good. unfold accepts. split; intros (log & H); exists log; apply (document_says _ None) in H || apply (document_says _ None); assumption.
  - pose proof br_ok as K. rewrite !Forall_forall in *. split; intros H b Hb; destruct (K b Hb); apply acc_says; auto.
Qed.
Theorem branches_refused e : refuses E fuel md ns e <-> exists pre b post, flat_map (branches_of []) ns = pre ++ b :: post
  /\ Forall (fun b => accepts E fuel md (branch_doc b)) pre /\ refuses E fuel md (branch_doc b) e.
Proof.
  pose proof (proj1 (wn_doc ns) Hw) as Ho. transitivity (exists d, run (flat_map (items out) ns) (Err e) d).
  - unfold refuses. split; intros (log & H); exists log; apply (document_says _ (Some e)) in H || apply (document_says _ (Some e)); assumption.
  - rewrite (br_bad _ _ _ e (br_doc ns []) (Forall_nil _)). pose proof br_ok as K. rewrite Forall_forall in K.
    split; intros (pre & b & post & Q & P1 & P2); exists pre, b, post; rewrite Q in K; (split; [exact Q|]).
    all: assert (Kp : forall x, List.In x pre -> x <> [] /\ Forall okit (bitems out x)) by (intros x Hx; apply K, in_or_app; left; exact Hx).
    all: assert (Kb : b <> [] /\ Forall okit (bitems out b)) by (apply K, in_or_app; right; left; reflexivity).
    all: split; [rewrite Forall_forall in *; intros x Hx; destruct (Kp x Hx); apply acc_says; auto|destruct Kb; apply bad_says; auto].
Qed.
End Branches.
End Local.

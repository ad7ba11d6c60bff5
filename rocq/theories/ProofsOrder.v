(** * ProofsOrder: the order of the attributes of an element *)
From Coq Require Import Lia.
From Verif Require Import ProofsShape ProofsFrame.
From Verif Require Export SpecOrder ProofsErase.
Local Open Scope go_scope.

(** ** Folds over reordered lists *)
Section Swap.
Context {S A L : Type} (f : L -> A -> M S L) (ok : S -> Prop) (Hok : forall x a s t y, ok s -> f x a s = (t, Ret y) -> ok t).
Definition swaps (a b : A) : Prop := forall x s t y u z, ok s -> f x a s = (t, Ret y) -> f y b t = (u, Ret z) ->
  exists t' y', f x b s = (t', Ret y') /\ f y' a t' = (u, Ret z).
Lemma fold_cons x a l s u z : foldM f x (a :: l) s = (u, Ret z) <-> exists t y, f x a s = (t, Ret y) /\ foldM f y l t = (u, Ret z).
Proof.
  cbn [foldM]. unfold bind. split.
  - destruct (f x a s) as [t [y|e| |]]; try discriminate. eauto.
  - intros (t & y & -> & H). exact H.
Qed.
Lemma fold_ok l : forall x s t y, ok s -> foldM f x l s = (t, Ret y) -> ok t.
Proof.
  induction l as [|a l IH]; intros x s t y Hs H; [injection H as <- <-; exact Hs|].
  apply fold_cons in H as (t' & y' & H1 & H2). exact (IH _ _ _ _ (Hok _ _ _ _ _ Hs H1) H2).
Qed.
Lemma fold_perm l l' : Permutation l l' -> ForallOrdPairs (fun a b => swaps a b /\ swaps b a) l ->
  forall x s t z, ok s -> foldM f x l s = (t, Ret z) -> foldM f x l' s = (t, Ret z).
Proof.
  induction 1 as [|a l l' Hp IH|a b l|l l1 l2 Hp1 IH1 Hp2 IH2]; intros Hl x s t z Hs H.
  - exact H.
  - inversion Hl as [|? ? _ Hl']; subst. apply fold_cons in H as (t' & y' & H1 & H2). apply fold_cons. exists t', y'. split; [exact H1|].
    exact (IH Hl' _ _ _ _ (Hok _ _ _ _ _ Hs H1) H2).
  - inversion Hl as [|? ? Ha _]; subst. inversion Ha as [|? ? [Hab Hba] _]; subst.
    apply fold_cons in H as (t1 & y1 & H1 & H2). apply fold_cons in H2 as (t2 & y2 & H2 & H3).
    destruct (Hab _ _ _ _ _ _ Hs H1 H2) as (t' & y' & K1 & K2). apply fold_cons. exists t', y'. split; [exact K1|]. apply fold_cons. exists t2, y2. auto.
  - assert (Hl1 : ForallOrdPairs (fun a b => swaps a b /\ swaps b a) l1).
    { clear -Hl Hp1. induction Hp1 as [|a l l' Hp IH|a b l|l l1 l2 Hp1 IH1 Hp2 IH2]; auto.
      - inversion Hl as [|? ? H1 H2]; subst. constructor; [|auto]. exact (Permutation_Forall Hp H1).
      - inversion Hl as [|? ? H1 H2]; subst. inversion H2 as [|? ? H3 H4]; subst. inversion H1 as [|? ? [H5 H6] H7]; subst.
        constructor; [constructor; auto|]. constructor; auto. }
    apply (IH2 Hl1 _ _ _ _ Hs). apply (IH1 Hl _ _ _ _ Hs H).
Qed.
Lemma one_block a B : (forall b, List.In b B -> swaps a b) -> forall x s t y u z, ok s -> f x a s = (t, Ret y) -> foldM f y B t = (u, Ret z) ->
  exists t' y', foldM f x B s = (t', Ret y') /\ f y' a t' = (u, Ret z).
Proof.
  induction B as [|b B IH]; intros Hb x s t y u z Hs H1 H2.
  - injection H2 as <- <-. exists s, x. auto.
  - apply fold_cons in H2 as (t2 & y2 & H2 & H3). destruct (Hb b (or_introl eq_refl) _ _ _ _ _ _ Hs H1 H2) as (t' & y' & K1 & K2).
    destruct (IH (fun b' Hb' => Hb b' (or_intror Hb')) _ _ _ _ _ _ (Hok _ _ _ _ _ Hs K1) K2 H3) as (t3 & y3 & K3 & K4).
    exists t3, y3. split; [|exact K4]. apply fold_cons. eauto.
Qed.
Lemma blocks A1 B : (forall a b, List.In a A1 -> List.In b B -> swaps a b) -> forall x s t y u z, ok s -> foldM f x A1 s = (t, Ret y) -> foldM f y B t = (u, Ret z) ->
  exists t' y', foldM f x B s = (t', Ret y') /\ foldM f y' A1 t' = (u, Ret z).
Proof.
  induction A1 as [|a A1 IH]; intros Hab x s t y u z Hs H1 H2.
  - injection H1 as <- <-. exists u, z. auto.
  - apply fold_cons in H1 as (t1 & y1 & H1 & H3).
    destruct (IH (fun a' b Ha Hb => Hab a' b (or_intror Ha) Hb) _ _ _ _ _ _ (Hok _ _ _ _ _ Hs H1) H3 H2) as (t2 & y2 & K1 & K2).
    destruct (one_block a B (fun b Hb => Hab a b (or_introl eq_refl) Hb) _ _ _ _ _ _ Hs H1 K1) as (t3 & y3 & K3 & K4).
    exists t3, y3. split; [exact K3|]. apply fold_cons. eauto.
Qed.
End Swap.

Section Decl.
Context {E : Env}.
Notation cursor := (cursor E).
Notation style := (style E).
Notation C := (@C E).
Definition quiet (c : cursor) : Prop := pc_mode (c_pc c) <> WarnErrorMode.

(** ** Text read into the points *)
Definition pure_points {A} (m : M (pcur E) A) : Prop := forall ps, exists ps' o, forall pc, pc_points pc = ps -> m pc = (set_points ps' pc, o).
Lemma sp_same (pc : pcur E) : set_points (pc_points pc) pc = pc. Proof. destruct pc; reflexivity. Qed.
Lemma sp_twice (pc : pcur E) a b : set_points a (set_points b pc) = set_points a pc. Proof. reflexivity. Qed.
Lemma pp_ret {A} (a : A) : pure_points (ret a). Proof. intros ps. exists ps, (Ret a). intros pc <-. rewrite sp_same. reflexivity. Qed.
Lemma pp_lift {A} (o : outcome A) : pure_points (lift o). Proof. intros ps. exists ps, o. intros pc <-. rewrite sp_same. reflexivity. Qed.
Lemma pp_bind {A B} (m : M (pcur E) A) (k : A -> M (pcur E) B) : pure_points m -> (forall a, pure_points (k a)) -> pure_points (bind m k).
Proof.
  intros Hm Hk ps. destruct (Hm ps) as (ps' & o & H). destruct o as [a|e| |].
  - destruct (Hk a ps') as (ps2 & o2 & H2). exists ps2, o2. intros pc Hp. unfold bind. rewrite (H pc Hp). rewrite H2 by reflexivity. reflexivity.
  - exists ps', (Err e). intros pc Hp. unfold bind. rewrite (H pc Hp). reflexivity.
  - exists ps', Panic. intros pc Hp. unfold bind. rewrite (H pc Hp). reflexivity.
  - exists ps', NoFuel. intros pc Hp. unfold bind. rewrite (H pc Hp). reflexivity.
Qed.
Lemma pp_push s : pure_points (pushFloat (E := E) s).
Proof. unfold pushFloat. apply pp_bind; [apply pp_lift|]. intros x ps. exists (ps ++ [x]), (Ret tt). intros pc <-. reflexivity. Qed.
Lemma pp_readFloat_loop s rs : forall l b, pure_points (readFloat_loop (E := E) s rs l b).
Proof. induction rs as [|[i n] rs IH]; intros l b; cbn [readFloat_loop]; [apply pp_ret|]. destruct (n =? 46)%N; [destruct b|]; auto. apply pp_bind; [apply pp_lift|]. intros x. apply pp_bind; [apply pp_push|]. auto. Qed.
Lemma pp_readFloat s : pure_points (readFloat (E := E) s).
Proof. unfold readFloat. apply pp_bind; [apply pp_readFloat_loop|]. intros l. apply pp_bind; [apply pp_lift|]. intros x. apply pp_push. Qed.
Lemma pp_loop s rs : forall li lr, pure_points (getPoints_loop (E := E) s rs li lr).
Proof.
  induction rs as [|[i r] rs IH]; intros li lr; cbn [getPoints_loop]; [apply pp_ret|]. destruct (negb (inNumber lr r)); [|apply IH].
  apply pp_bind; [|intros _; apply IH]. destruct li; [|apply pp_ret]. apply pp_bind; [apply pp_lift|]. intros x. apply pp_readFloat.
Qed.
Lemma getPoints_const s : exists ps o, forall pc, getPoints (E := E) s pc = (set_points ps pc, o).
Proof.
  assert (H : pure_points (lastIndex <- getPoints_loop (E := E) s (range_str s) None 32 ;;
    match lastIndex with Some li => if li =? String.length s then ret tt else x <- lift (slice s li (String.length s)) ;; readFloat x | None => ret tt end)).
  { apply pp_bind; [apply pp_loop|]. intros [li|]; [|apply pp_ret]. destruct (li =? String.length s); [apply pp_ret|]. apply pp_bind; [apply pp_lift|]. intros x. apply pp_readFloat. }
  destruct (H []) as (ps & o & K). exists ps, o. intros pc. unfold getPoints. unfold bind at 1, modify. rewrite K by reflexivity. reflexivity.
Qed.

(** ** What one declaration needs and does *)
Inductive effect := NoEffect | SetPoints (ps : list (F E)) | SetHeap (h : list (list string)).
Definition act (e : effect) (c : cursor) : cursor :=
  match e with
  | NoEffect => c
  | SetPoints ps => c_set_pc (set_points ps (c_pc c)) c
  | SetHeap h => c_set_svg (sv_set_mheap h (c_svg c)) c
  end.
Definition may (k : string) (e : effect) : Prop :=
  match e with NoEffect => True | SetPoints _ => k = "transform"%string | SetHeap _ => k = "mask"%string end.
Definition agree (k : string) (c c' : cursor) : Prop :=
  sv_viewBox (c_svg c') = sv_viewBox (c_svg c) /\ sv_grads (c_svg c') = sv_grads (c_svg c) /\ c_gheap c' = c_gheap c
  /\ c_stack c' = c_stack c /\ pc_mode (c_pc c') = pc_mode (c_pc c) /\ (k = "mask"%string -> sv_mheap (c_svg c') = sv_mheap (c_svg c)).
Definition local (k v : string) (st : style) (c : cursor) (c1 : cursor) (st1 : style) : Prop :=
  exists us e, may k e /\ (forall u, List.In u us -> List.In (projT1 u) (parts_named k))
    /\ c1 = act e c /\ st1 = put_parts us st
    /\ forall c' st', agree k c c' -> (forall p, List.In p (parts_named k) -> part_of p st' = part_of p st) ->
       readStyleAttr st' k v c' = (act e c', Ret (put_parts us st')).
Lemma gradURL_agree v d k c c' : agree k c c' -> exists o, readGradURL v d c = (c, o) /\ readGradURL v d c' = (c', o).
Proof.
  intros (H1 & H2 & H3 & _). unfold readGradURL. destruct (hasPrefix v "url(" && hasSuffix v ")"); [|exists (Ret None); auto].
  unfold bind, lift, gets, ret. destruct (slice v 4 (String.length v - 1)) as [s|e| |]; try (eexists; split; reflexivity). cbv zeta.
  destruct (hasPrefix (trimSpace s) "#"); [|exists (Ret None); auto]. destruct (slice (trimSpace s) 1 (String.length (trimSpace s))) as [id|e| |]; try (eexists; split; reflexivity).
  rewrite H2, H3. destruct (mget id (sv_grads (c_svg c))); [|exists (Ret None); auto]. destruct (idx (c_gheap c) n); eexists; split; reflexivity.
Qed.
Lemma dashes_agree l k : forall c c', agree k c c' -> exists o, parseDashes l c = (c, o) /\ parseDashes l c' = (c', o).
Proof.
  induction l as [|s l IH]; intros c c' Ha; cbn [parseDashes]; [exists (Ret []); auto|].
  destruct (IH c c' Ha) as (o & K1 & K2). unfold bind, cParseUnit. destruct Ha as (H1 & _). rewrite H1.
  destruct (resolveUnit (sv_viewBox (c_svg c)) (trimSpace s) diagPercentage); try (eexists; split; reflexivity).
  rewrite K1, K2. destruct o; eexists; split; reflexivity.
Qed.
Definition set_pts (ps : list (F E)) (c : cursor) : cursor := c_set_pc (set_points ps (c_pc c)) c.
Lemma step_const m t : (forall c, exists o, transformStep (E := E) m t c = (c, o) /\ forall c', transformStep m t c' = (c', o))
   \/ exists ps o, forall c, transformStep m t c = (set_pts ps c, o).
Proof.
  unfold transformStep. cbv zeta. destruct (String.length (trimSpace t) =? 0); [left; intros c; eexists; split; reflexivity|].
  destruct (split1 "(" (trimSpace t)) as [|x [|y [|z r]]]; try (left; intros c; eexists; split; reflexivity).
  destruct (String.length y <? 1); [left; intros c; eexists; split; reflexivity|]. right.
  destruct (getPoints_const y) as (ps & o & K). destruct o as [u|e| |].
  - exists ps, (readTransformAttr m (toLower E (trimSpace x)) ps). intros c. unfold bind, liftP. rewrite K. cbn. unfold lift. destruct (readTransformAttr _ _ _); reflexivity.
  - exists ps, (Err e). intros c. unfold bind, liftP. rewrite K. reflexivity.
  - exists ps, Panic. intros c. unfold bind, liftP. rewrite K. reflexivity.
  - exists ps, NoFuel. intros c. unfold bind, liftP. rewrite K. reflexivity.
Qed.
Lemma steps_const l : forall m, (forall c, exists o, foldM (transformStep (E := E)) m l c = (c, o) /\ forall c', foldM transformStep m l c' = (c', o))
   \/ exists ps o, forall c, foldM transformStep m l c = (set_pts ps c, o).
Proof.
  induction l as [|t l IH]; intros m; [left; intros c; eexists; split; reflexivity|]. cbn [foldM].
  destruct (step_const m t) as [H|(ps & o & H)].
  - destruct (H (cursor0 StrictErrorMode)) as (o & _ & H'). clear H. destruct o as [m'|e| |].
    + destruct (IH m') as [K|(ps & o & K)].
      * left. intros c. destruct (K c) as (o & K1 & K2). exists o. unfold bind. rewrite H'. split; [exact K1|]. intros c'. rewrite H'. apply K2.
      * right. exists ps, o. intros c. unfold bind. rewrite H'. apply K.
    + left. intros c. exists (Err e). unfold bind. rewrite H'. split; [reflexivity|]. intros c'. rewrite H'. reflexivity.
    + left. intros c. exists Panic. unfold bind. rewrite H'. split; [reflexivity|]. intros c'. rewrite H'. reflexivity.
    + left. intros c. exists NoFuel. unfold bind. rewrite H'. split; [reflexivity|]. intros c'. rewrite H'. reflexivity.
  - right. destruct o as [m'|e| |].
    + destruct (IH m') as [K|(ps' & o & K)].
      * destruct (K (cursor0 StrictErrorMode)) as (o & _ & K'). exists ps, o. intros c. unfold bind. rewrite H. apply K'.
      * exists ps', o. intros c. unfold bind. rewrite H. rewrite K. reflexivity.
    + exists ps, (Err e). intros c. unfold bind. rewrite H. reflexivity.
    + exists ps, Panic. intros c. unfold bind. rewrite H. reflexivity.
    + exists ps, NoFuel. intros c. unfold bind. rewrite H. reflexivity.
Qed.
Lemma transform_agree v c c1 m : parseTransform (E := E) v c = (c1, Ret m) ->
  exists e, may "transform" e /\ forall c', c_stack c' = c_stack c -> parseTransform v c' = (act e c', Ret m).
Proof.
  unfold parseTransform, bind, topStyle. destruct (c_stack c) as [|top rest] eqn:Hs; [discriminate|]. intros H.
  destruct (steps_const (rev (split1 ")" v)) (st_transform top)) as [K|(ps & o & K)].
  - destruct (K c) as (o & K1 & K2). rewrite K1 in H. injection H as <- ->. exists NoEffect. split; [exact I|]. intros c' Hc. rewrite Hc. apply K2.
  - rewrite K in H. injection H as <- ->. exists (SetPoints ps). split; [reflexivity|]. intros c' Hc. rewrite Hc. apply K.
Qed.
Ltac eqst := match goal with |- _ ?st = _ => destruct st as [? ? ? ? [? ? ? ? ?] ? ? ? ? ? ?]; reflexivity end.
Lemma handle_quiet msg c : quiet c -> forall c', pc_mode (c_pc c') = pc_mode (c_pc c) ->
  handleError (E := E) msg c = (c, match pc_mode (c_pc c) with StrictErrorMode => Err (ErrMsg msg) | _ => Ret tt end)
  /\ handleError (E := E) msg c' = (c', match pc_mode (c_pc c) with StrictErrorMode => Err (ErrMsg msg) | _ => Ret tt end).
Proof.
  intros Hq c' Hc. unfold handleError, bind, gets. rewrite Hc. unfold quiet in Hq. destruct (pc_mode (c_pc c)); [split; reflexivity|contradiction|split; reflexivity].
Qed.
Lemma local_none k v st c : (forall c' st', agree k c c' -> readStyleAttr (E := E) st' k v c' = (c', Ret st')) -> local k v st c c st.
Proof. intros H. exists [], NoEffect. repeat split; auto. intros u []. Qed.
Lemma local_one k v p x st c : List.In p (parts_named k) ->
  (forall c' st', agree k c c' -> part_of p st' = part_of p st -> readStyleAttr (E := E) st' k v c' = (c', Ret (put_part p x st'))) ->
  local k v st c c (put_part p x st).
Proof.
  intros Hp H. exists [assign p x], NoEffect. split; [exact I|]. split; [intros u [<-|[]]; exact Hp|]. repeat split.
  intros c' st' Ha Hs. apply H; [exact Ha|apply Hs, Hp].
Qed.
Lemma agree_refl k c : agree k c c. Proof. repeat split. Qed.
Lemma decl_local k v st c c1 st1 : quiet c -> readStyleAttr (E := E) st k v c = (c1, Ret st1) -> local k v st c c1 st1.
Proof.
  intros Hq H.
  assert (Hpaint : forall p (get : style -> option (pattern E)) (set : option (pattern E) -> style -> style) q, List.In p (parts_named k) ->
     (forall st', readStyleAttr st' k v = (g <- readGradURL v (get st') ;; match g with Some g => ret (set (Some (PGrad g)) st') | None => col <- lift (@parseSVGColor E v) ;; ret (set (asPattern col) st') end)) ->
     (forall x st', set x st' = put_part p (q x) st') -> (forall a b, part_of p a = part_of p b -> get a = get b) -> local k v st c c1 st1).
  { intros p get set q Hp Hr Hset Hget. rewrite Hr in H. apply bindC in H as (c2 & g & H1 & H2).
    assert (c2 = c) as -> by (destruct (gradURL_agree v (get st) k c c (agree_refl _ _)) as (o & K & _); congruence).
    destruct g as [g|].
    - injection H2 as <- <-. rewrite Hset. apply local_one; [exact Hp|]. intros c' st' Ha Hs. rewrite Hr, (Hget _ _ Hs).
      destruct (gradURL_agree v (get st) k c c' Ha) as (o & K1 & K2). unfold bind. rewrite K2. rewrite K1 in H1. injection H1 as ->. rewrite <- Hset. reflexivity.
    - apply bindC in H2 as (c2 & col & H3 & H2). injection H3 as <- Hcol. injection H2 as <- <-. rewrite Hset. apply local_one; [exact Hp|]. intros c' st' Ha Hs. rewrite Hr, (Hget _ _ Hs).
      destruct (gradURL_agree v (get st) k c c' Ha) as (o & K1 & K2). unfold bind, lift. rewrite K2. rewrite K1 in H1. injection H1 as ->. rewrite Hcol, <- Hset. reflexivity. }
  assert (Hword : forall X (o : option X) (p : part) (set : X -> style -> style) (q : X -> part_type E p) n, List.In p (parts_named k) ->
     (forall st', readStyleAttr st' k v = match o with Some g => ret (set g st') | None => handleError (unsupported v n) ;; ret st' end) ->
     (forall x st', set x st' = put_part p (q x) st') -> local k v st c c1 st1).
  { intros X o p set q n Hp Hr Hset. rewrite Hr in H. destruct o as [g|].
    - injection H as <- <-. rewrite Hset. apply local_one; [exact Hp|]. intros c' st' _ _. rewrite Hr, <- Hset. reflexivity.
    - apply bindC in H as (c2 & u & H1 & H2). injection H2 as <- <-.
      destruct (handle_quiet (unsupported v n) c Hq c eq_refl) as [K1 _]. rewrite K1 in H1. injection H1 as <- Hm.
      apply local_none. intros c' st' Ha. rewrite Hr. unfold bind. destruct Ha as (_ & _ & _ & _ & Ha & _).
      destruct (handle_quiet (unsupported v n) c Hq c' Ha) as [_ ->]. rewrite Hm. reflexivity. }
  assert (Hunit : forall p (set : F E -> style -> style) (q : F E -> part_type E p) r, List.In p (parts_named k) ->
     (forall st', readStyleAttr st' k v = (w <- cParseUnit v r ;; ret (set w st'))) -> (forall x st', set x st' = put_part p (q x) st') -> local k v st c c1 st1).
  { intros p set q r Hp Hr Hset. rewrite Hr in H. apply bindC in H as (c2 & w & H1 & H2). injection H2 as <- <-. unfold cParseUnit in H1. injection H1 as <- Hw.
    rewrite Hset. apply local_one; [exact Hp|]. intros c' st' (Ha & _) _. rewrite Hr. unfold bind, cParseUnit. rewrite Ha, Hw, <- Hset. reflexivity. }
  assert (Hnum : forall p (set : F E -> style -> style) (q : F E -> style -> part_type E p), List.In p (parts_named k) ->
     (forall st', readStyleAttr st' k v = (w <- lift (@parseBasicFloat E v) ;; ret (set w st'))) -> (forall x st', set x st' = put_part p (q x st') st') ->
     (forall x a b, part_of p a = part_of p b -> q x a = q x b) -> local k v st c c1 st1).
  { intros p set q Hp Hr Hset Hget. rewrite Hr in H. apply bindC in H as (c2 & w & H1 & H2). injection H2 as <- <-. unfold lift in H1. injection H1 as <- Hw.
    rewrite Hset. apply local_one; [exact Hp|]. intros c' st' _ Hs. rewrite Hr. unfold bind, lift. rewrite Hw, <- (Hget _ _ _ Hs), <- Hset. reflexivity. }
  pose proof H as H'. unfold readStyleAttr in H'.
  destruct (String.eqb_spec k "fill") as [->|n1].
  { clear H'. apply (Hpaint FillPaint st_filler s_set_filler (fun x => x)); [left; reflexivity|reflexivity|intros; eqst|auto]. }
  destruct (String.eqb_spec k "fill-rule") as [->|n2].
  { clear H'. apply (Hword _ (if String.eqb v "evenodd" then Some false else if String.eqb v "nonzero" then Some true else None) FillRule s_set_nonZero (fun x => x) "fill-rule"%string);
      [left; reflexivity|intros st'; unfold readStyleAttr; cbn [String.eqb Ascii.eqb Bool.eqb]; destruct (String.eqb v "evenodd"); [|destruct (String.eqb v "nonzero")]; reflexivity|intros; eqst]. }
  destruct (String.eqb_spec k "stroke") as [->|n3].
  { clear H'. apply (Hpaint StrokePaint st_liner s_set_liner (fun x => x)); [left; reflexivity|reflexivity|intros; eqst|auto]. }
  destruct (String.eqb_spec k "stroke-linegap") as [->|n4].
  { clear H'. apply (Hword _ (gapOf v) LineGap (fun g st => s_set_join (j_set_gap g (st_join st)) st) (fun x => x) "stroke-linegap"%string); [left; reflexivity|reflexivity|intros x st'; eqst]. }
  destruct (String.eqb_spec k "stroke-leadlinecap") as [->|n5].
  { clear H'. apply (Hword _ (capOf v) LeadLineCap (fun g st => s_set_join (j_set_lead g (st_join st)) st) (fun x => x) "stroke-leadlinecap"%string); [left; reflexivity|reflexivity|intros x st'; eqst]. }
  destruct (String.eqb_spec k "stroke-linecap") as [->|n6].
  { clear H'. apply (Hword _ (capOf v) LineCap (fun g st => s_set_join (j_set_trail g (st_join st)) st) (fun x => x) "stroke-linecap"%string); [left; reflexivity|reflexivity|intros x st'; eqst]. }
  destruct (String.eqb_spec k "stroke-linejoin") as [->|n7].
  { clear H'. apply (Hword _ (joinOf v) LineJoin (fun g st => s_set_join (j_set_join g (st_join st)) st) (fun x => x) "stroke-linejoin"%string); [left; reflexivity|reflexivity|intros x st'; eqst]. }
  destruct (String.eqb_spec k "stroke-miterlimit") as [->|n8].
  { clear H'. apply (Hnum MiterLimit (fun f st => s_set_join (j_set_miter (fToFixed f) (st_join st)) st) (fun f _ => fToFixed f)); [left; reflexivity|reflexivity|intros x st'; eqst|reflexivity]. }
  destruct (String.eqb_spec k "stroke-width") as [->|n9].
  { clear H'. apply (Hunit StrokeWidth s_set_lineWidth (fun x => x) widthPercentage); [left; reflexivity|reflexivity|intros x st'; eqst]. }
  destruct (String.eqb_spec k "stroke-dashoffset") as [->|n10].
  { clear H'. apply (Hunit DashOffset s_set_dashOffset (fun x => x) diagPercentage); [left; reflexivity|reflexivity|intros x st'; eqst]. }
  destruct (String.eqb_spec k "stroke-dasharray") as [->|n11].
  { destruct (negb (String.eqb v "none")) eqn:Hv.
    - apply bindC in H' as (c2 & ds & H1 & H2). injection H2 as <- <-.
      assert (Hset : forall x st', s_set_dash x st' = put_part DashArray (x : part_type E DashArray) st') by (intros x st'; eqst). rewrite Hset.
      assert (c2 = c) as -> by (destruct (dashes_agree (splitOnCommaOrSpace v) "" c c (agree_refl _ _)) as (o & K & _); congruence).
      apply local_one; [left; reflexivity|]. intros c' st' Ha _. unfold readStyleAttr. cbn [String.eqb Ascii.eqb Bool.eqb]. rewrite Hv.
      destruct (dashes_agree (splitOnCommaOrSpace v) _ c c' Ha) as (o & K1 & K2). unfold bind. rewrite K2. rewrite K1 in H1. injection H1 as ->. rewrite <- Hset. reflexivity.
    - injection H' as <- <-. apply local_none. intros c' st' _. unfold readStyleAttr. cbn [String.eqb Ascii.eqb Bool.eqb]. rewrite Hv. reflexivity. }
  destruct (String.eqb_spec k "opacity") as [->|n12].
  { cbn [orb] in H'. apply bindC in H' as (c2 & f & H1 & H2). cbn [String.eqb Ascii.eqb Bool.eqb negb] in H2. injection H2 as <- <-. unfold lift in H1. injection H1 as <- Hf.
    exists [assign FillOpacity (fmul E (st_fillOpacity st) f : part_type E FillOpacity); assign StrokeOpacity (fmul E (st_lineOpacity st) f : part_type E StrokeOpacity)], NoEffect.
    split; [exact I|]. split; [intros u [<-|[<-|[]]]; [left|right; left]; reflexivity|]. split; [reflexivity|]. split; [destruct st as [? ? ? ? [? ? ? ? ?] ? ? ? ? ? ?]; reflexivity|].
    intros c' st' _ Hs. unfold readStyleAttr. cbn [String.eqb Ascii.eqb Bool.eqb orb negb]. unfold bind, lift. rewrite Hf.
    rewrite <- (Hs FillOpacity (or_introl eq_refl) : st_fillOpacity st' = st_fillOpacity st), <- (Hs StrokeOpacity (or_intror (or_introl eq_refl)) : st_lineOpacity st' = st_lineOpacity st).
    destruct st' as [? ? ? ? [? ? ? ? ?] ? ? ? ? ? ?]; reflexivity. }
  destruct (String.eqb_spec k "stroke-opacity") as [->|n13].
  { clear H'. apply (Hnum StrokeOpacity (fun f st => s_set_lineOpacity (fmul E (st_lineOpacity st) f) st) (fun f st => fmul E (st_lineOpacity st) f));
      [left; reflexivity|reflexivity|intros x st'; eqst|intros x a b Hab; cbn in Hab; rewrite Hab; reflexivity]. }
  destruct (String.eqb_spec k "fill-opacity") as [->|n14].
  { clear H'. apply (Hnum FillOpacity (fun f st => s_set_fillOpacity (fmul E (st_fillOpacity st) f) st) (fun f st => fmul E (st_fillOpacity st) f));
      [left; reflexivity|reflexivity|intros x st'; eqst|intros x a b Hab; cbn in Hab; rewrite Hab; reflexivity]. }
  cbn [orb] in H'.
  destruct (String.eqb_spec k "transform") as [->|n15].
  { apply bindC in H' as (c2 & m & H1 & H2). injection H2 as <- <-. destruct (transform_agree _ _ _ _ H1) as (e & He & K).
    assert (Hset : forall x st', s_set_transform x st' = put_part Transform (x : part_type E Transform) st') by (intros x st'; eqst).
    exists [assign Transform (m : part_type E Transform)], e. split; [exact He|]. split; [intros u [<-|[]]; left; reflexivity|].
    split; [rewrite (K c eq_refl) in H1; injection H1 as <-; reflexivity|]. split; [apply Hset|].
    intros c' st' (_ & _ & _ & Ha & _) _. unfold readStyleAttr. cbn [String.eqb Ascii.eqb Bool.eqb orb]. unfold bind. rewrite (K c' Ha). cbn. rewrite <- Hset. reflexivity. }
  destruct (String.eqb_spec k "mask") as [->|n16].
  { apply bindC in H' as (c2 & id & H1 & H2). unfold lift in H1. injection H1 as <- Hid. apply bindC in H2 as (c3 & sl & H1 & H2). injection H2 as <- <-.
    assert (Hset : forall x st', s_set_masks x st' = put_part MaskList (x : part_type E MaskList) st') by (intros x st'; eqst).
    unfold appendStr in H1.
    assert (K : exists h, c3 = act (SetHeap h) c /\ forall c', sv_mheap (c_svg c') = sv_mheap (c_svg c) -> appendStr (st_masks st) id c' = (act (SetHeap h) c', Ret sl)).
    { destruct (sl_len (st_masks st) <? sl_cap (st_masks st)) eqn:Hl; injection H1 as <- <-; eexists; (split; [reflexivity|]); intros c' Hc; unfold appendStr; rewrite Hl, Hc; reflexivity. }
    destruct K as (h & -> & K). exists [assign MaskList (sl : part_type E MaskList)], (SetHeap h). split; [reflexivity|]. split; [intros u [<-|[]]; left; reflexivity|].
    split; [reflexivity|]. split; [apply Hset|]. intros c' st' (_ & _ & _ & _ & _ & Ha) Hs. unfold readStyleAttr. cbn [String.eqb Ascii.eqb Bool.eqb orb]. unfold bind, lift. rewrite Hid.
    rewrite (Hs MaskList (or_introl eq_refl) : st_masks st' = st_masks st), (K c' (Ha eq_refl)), Hset. reflexivity. }
  injection H' as <- <-. apply local_none. intros c' st' _. unfold readStyleAttr.
  repeat match goal with Hn : k <> ?x |- _ => apply String.eqb_neq in Hn; rewrite ?Hn; clear Hn end. reflexivity.
Qed.
(** ** Declarations about different parts *)
Lemma get_puts us p (st : style) : (forall u, List.In u us -> projT1 u <> p) -> part_of p (put_parts us st) = part_of p st.
Proof.
  unfold put_parts. revert st. induction us as [|u us IH]; intros st Hu; [reflexivity|]. cbn [fold_left].
  rewrite IH by (intros u' Hu'; apply Hu; right; exact Hu'). apply get_put_other. apply Hu. left. reflexivity.
Qed.
Lemma put_comm p q (x : part_type E p) (y : part_type E q) (st : style) : p <> q -> put_part p x (put_part q y st) = put_part q y (put_part p x st).
Proof.
  intros Hpq. apply style_ext. intros r. destruct (part_eq_dec p r) as [<-|Hp].
  - rewrite get_put_same, get_put_other by congruence. rewrite get_put_same. reflexivity.
  - rewrite get_put_other by exact Hp. destruct (part_eq_dec q r) as [<-|Hq].
    + rewrite !get_put_same. reflexivity.
    + rewrite !get_put_other by assumption. reflexivity.
Qed.
Lemma put_puts us p (x : part_type E p) : forall st : style, (forall u, List.In u us -> projT1 u <> p) -> put_parts us (put_part p x st) = put_part p x (put_parts us st).
Proof.
  unfold put_parts. induction us as [|u us IH]; intros st Hu; [reflexivity|]. cbn [fold_left].
  rewrite put_comm by (apply Hu; left; reflexivity). apply IH. intros u' Hu'. apply Hu. right. exact Hu'.
Qed.
Lemma puts_puts us vs : forall st : style, (forall u v, List.In u us -> List.In v vs -> projT1 u <> projT1 v) -> put_parts us (put_parts vs st) = put_parts vs (put_parts us st).
Proof.
  induction vs as [|v vs IH]; intros st H; [reflexivity|].
  change (put_parts us (put_parts vs (put_part (projT1 v) (projT2 v) st)) = put_parts vs (put_part (projT1 v) (projT2 v) (put_parts us st))).
  rewrite IH by (intros; apply H; [assumption|right; assumption]). rewrite put_puts; [reflexivity|]. intros u Hu. apply H; [exact Hu|left; reflexivity].
Qed.
Definition disjoint_keys (k k' : string) : Prop := forall p, List.In p (parts_named k) -> List.In p (parts_named k') -> False.
Lemma act_agree k k' e c : may k e -> disjoint_keys k k' -> agree k' c (act e c).
Proof.
  intros He Hd. destruct e as [|ps|h]; cbn in He; repeat split. intros ->. subst k. destruct (Hd MaskList); left; reflexivity.
Qed.
Lemma agree_sym k c c' : agree k c c' -> agree k c' c.
Proof. intros (H1 & H2 & H3 & H4 & H5 & H6). repeat split; symmetry; auto. Qed.
Lemma act_comm k k' e e' (c : cursor) : may k e -> may k' e' -> disjoint_keys k k' -> act e (act e' c) = act e' (act e c).
Proof.
  intros He He' Hd. destruct e as [|ps|h], e' as [|ps'|h']; cbn in He, He'; subst; try reflexivity; exfalso.
  - apply (Hd Transform); left; reflexivity. - apply (Hd MaskList); left; reflexivity.
Qed.
Lemma act_quiet e c : quiet c -> quiet (act e c). Proof. destruct e; auto. Qed.
Lemma decl_ok_quiet x d (s t : cursor) y : quiet s -> readDecl (E := E) x d s = (t, Ret y) -> quiet t.
Proof. intros Hs H. destruct (decl_local _ _ _ _ _ _ Hs H) as (us & e & _ & _ & -> & _). apply act_quiet, Hs. Qed.
Lemma decl_swaps d d' : disjoint_keys (fst d) (fst d') -> swaps (readDecl (E := E)) quiet d d'.
Proof.
  intros Hd x s t y u z Hs H1 H2. pose proof (decl_ok_quiet _ _ _ _ _ Hs H1) as Ht.
  destruct (decl_local _ _ _ _ _ _ Hs H1) as (us & e & He & Hu & -> & -> & K1).
  destruct (decl_local _ _ _ _ _ _ Ht H2) as (vs & e' & He' & Hv & -> & -> & K2).
  assert (Huv : forall u v, List.In u us -> List.In v vs -> projT1 u <> projT1 v).
  { intros a b Ha Hb Hab. apply (Hd (projT1 a)); [apply Hu, Ha|rewrite Hab; apply Hv, Hb]. }
  exists (act e' s), (put_parts vs x). split.
  - apply K2; [apply agree_sym, (act_agree (fst d)); assumption|]. intros p Hp. symmetry. apply get_puts. intros a Ha Hq. apply (Hd p); [rewrite <- Hq; apply Hu, Ha|exact Hp].
  - unfold readDecl. rewrite K1.
    + rewrite (act_comm (fst d) (fst d') e e') by assumption. rewrite puts_puts by exact Huv. reflexivity.
    + apply (act_agree (fst d')); [assumption|]. intros p Hp Hp'. exact (Hd p Hp' Hp).
    + intros p Hp. apply get_puts. intros a Ha Hq. apply (Hd p); [exact Hp|rewrite <- Hq; apply Hv, Ha].
Qed.

(** ** The style of an element *)
Definition pairs1 (a : attr) : list string :=
  if String.eqb (toLower E (a_name a)) "style" then split1 ";" (a_val a) else [(a_name a ++ ":" ++ a_val a)%string].
Definition styleAttr1 (st : style) (a : attr) : C style := foldM stylePair st (pairs1 a).
Lemma attr1_reads a ds : attr_decls a ds -> forall st c, styleAttr1 st a c = foldM readDecl st ds c.
Proof.
  intros Ha st c. unfold styleAttr1.
  assert (H : pairs1 a = stylePairs (E := E) [a]) by (unfold stylePairs, pairs1; cbn; rewrite app_nil_r; reflexivity).
  rewrite H. rewrite (attrs_reads [a] (ds ++ [])); [rewrite app_nil_r; reflexivity|]. constructor; [exact Ha|constructor].
Qed.
Lemma pairs_attrs l : forall st c, foldM stylePair st (stylePairs (E := E) l) c = foldM styleAttr1 st l c.
Proof.
  induction l as [|a l IH]; intros st c; [reflexivity|]. cbn [stylePairs flat_map foldM]. rewrite foldM_app. unfold bind.
  change (foldM stylePair st (if String.eqb (toLower E (a_name a)) "style" then split1 ";" (a_val a) else [(a_name a ++ ":" ++ a_val a)%string]) c) with (styleAttr1 st a c).
  destruct (styleAttr1 st a c) as [c' [st'|e| |]]; try reflexivity. apply IH.
Qed.
Lemma attr_swaps a b : readable a -> readable b -> apart a b -> swaps styleAttr1 quiet a b.
Proof.
  intros (ds & Ha) (ds' & Hb) (_ & _ & _ & Hp) x s t y u z Hs H1 H2. rewrite (attr1_reads _ _ Ha) in H1. rewrite (attr1_reads _ _ Hb) in H2.
  destruct (blocks (readDecl (E := E)) quiet (fun x a s t y => decl_ok_quiet x a s t y) ds ds') with (x := x) (s := s) (t := t) (y := y) (u := u) (z := z) as (t' & y' & K1 & K2); auto.
  - intros [k v] [k' v'] H3 H4. apply decl_swaps. intros p P1 P2. apply (Hp p). split; [exists ds, k, v|exists ds', k', v']; auto.
  - exists t', y'. rewrite (attr1_reads _ _ Ha), (attr1_reads _ _ Hb). auto.
Qed.
Lemma apart_sym a b : apart a b -> apart b a.
Proof. intros (H1 & H2 & H3 & H4). split; [congruence|]. split; [exact H3|]. split; [exact H2|]. intros p [P1 P2]. apply (H4 p). auto. Qed.
Lemma pairs_of (P : attr -> Prop) (R R' : attr -> attr -> Prop) l : Forall P l -> ForallOrdPairs R l -> (forall a b, P a -> P b -> R a b -> R' a b) -> ForallOrdPairs R' l.
Proof.
  intros HP H HR. induction H as [|a l Ha _ IH]; [constructor|]. inversion HP as [|? ? Pa Pl]; subst. constructor; [|auto].
  clear -Ha Pa Pl HR. induction Ha; constructor; inversion Pl; subst; auto.
Qed.
Lemma attr1_quiet x a (s t : cursor) y : quiet s -> styleAttr1 x a s = (t, Ret y) -> quiet t.
Proof.
  intros Hs H. refine (fold_ok stylePair quiet _ _ _ _ _ _ Hs H). clear. intros x d s t y Hs H. unfold stylePair in H.
  destruct (split1 ":" d) as [|k [|v r]]; [injection H as <- <-; exact Hs|injection H as <- <-; exact Hs|]. exact (decl_ok_quiet x (_, _) s t y Hs H).
Qed.
End Decl.

Section Elements.
Context {E : Env}.
Notation cursor := (cursor E).
Notation style := (style E).
Notation svg := (svg E).
Notation C := (@C E).
Definition always (c : cursor) : Prop := True.
(** ** Attributes of elements *)
Lemma apart_names a b n : apart a b -> is a n = true -> is b n = true -> False.
Proof. intros (H & _) H1 H2. apply String.eqb_eq in H1, H2. rewrite H1, H2 in H. contradiction. Qed.
Lemma apart_r1 a b n : apart a b -> is a "r" = true -> n = "rx"%string \/ n = "ry"%string -> is b n = true -> False.
Proof. intros (_ & H & _) H1 Hn H2. apply String.eqb_eq in H1, H2. apply H. split; [exact H1|]. rewrite H2. exact Hn. Qed.
Lemma apart_r2 a b n : apart a b -> is b "r" = true -> n = "rx"%string \/ n = "ry"%string -> is a n = true -> False.
Proof. intros H. apply (apart_r1 b a n), apart_sym, H. Qed.
Ltac clash := match goal with
  | Hp : apart ?a ?b, H1 : is ?a ?n = true, H2 : is ?b ?n = true |- _ => destruct (apart_names _ _ _ Hp H1 H2)
  | Hp : apart ?a ?b, H1 : is ?a "r" = true, H2 : is ?b "rx" = true |- _ => destruct (apart_r1 _ _ _ Hp H1 (or_introl eq_refl) H2)
  | Hp : apart ?a ?b, H1 : is ?a "r" = true, H2 : is ?b "ry" = true |- _ => destruct (apart_r1 _ _ _ Hp H1 (or_intror eq_refl) H2)
  | Hp : apart ?a ?b, H1 : is ?b "r" = true, H2 : is ?a "rx" = true |- _ => destruct (apart_r2 _ _ _ Hp H1 (or_introl eq_refl) H2)
  | Hp : apart ?a ?b, H1 : is ?b "r" = true, H2 : is ?a "ry" = true |- _ => destruct (apart_r2 _ _ _ Hp H1 (or_intror eq_refl) H2)
  end.
Ltac open H := unfold bind, cParseUnit, lift, ret, raise in H; cbn beta iota in H.
Ltac branch H := repeat match type of H with
  | (if is ?a ?n then _ else _) _ = _ => let Hn := fresh "N" in destruct (is a n) eqn:Hn
  end.
Ltac crack H := repeat match type of H with
  | context [match ?o with Ret _ => _ | Err _ => _ | Panic => _ | NoFuel => _ end] => let Ho := fresh "O" in destruct o eqn:Ho; try discriminate H
  | context [if ?b then _ else _] => let Ho := fresh "O" in destruct b eqn:Ho; try discriminate H
  end.
Ltac known := repeat match goal with
  | Hn : is ?a ?n = _ |- context [is ?a ?n] => rewrite Hn
  | Ho : ?o = _ |- context [match ?o with Ret _ => _ | Err _ => _ | Panic => _ | NoFuel => _ end] => rewrite Ho
  | Ho : ?b = _ |- context [if ?b then _ else _] => rewrite Ho
  end.
Ltac fin := unfold bind, cParseUnit, lift, ret, raise; cbn beta iota; known; reflexivity.
Tactic Notation "swap_units" reference(f) := intros Hp x s t y u z _ H1 H2; repeat match goal with l : prod _ _ |- _ => destruct l end; unfold f in *;
  branch H1; open H1; crack H1; injection H1 as; subst; branch H2; try clash; open H2; crack H2; injection H2 as; subst;
  eexists; eexists; (split; [known; fin|known; fin]).
Lemma rect_swaps a b : apart a b -> swaps (rectAttr (E := E)) always a b. Proof. swap_units rectAttr. Qed.
Lemma mask_swaps a b : apart a b -> swaps (maskAttr (E := E)) always a b. Proof. swap_units maskAttr. Qed.
Lemma circle_swaps a b : apart a b -> swaps (circleAttr (E := E)) always a b. Proof. swap_units circleAttr. Qed.
Lemma line_swaps a b : apart a b -> swaps (lineAttr (E := E)) always a b. Proof. swap_units lineAttr. Qed.
Lemma stop_swaps a b : apart a b -> swaps (stopAttr (E := E)) always a b. Proof. swap_units stopAttr. Qed.
Lemma use_swaps a b : apart a b -> swaps (useAttr (E := E)) always a b. Proof. swap_units useAttr. Qed.
End Elements.

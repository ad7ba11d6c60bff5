(** * ProofsEnd: termination and absence of panics over document trees *)
From Coq Require Import Lia.
From Verif Require Export SpecEnd ProofsFuel ProofsDoc ProofsAttrs ProofsGrad ProofsFlags.
Local Open Scope go_scope.

Lemma group_refs_app l1 : forall g l2, group_refs g (l1 ++ l2) = group_refs g l1 ++ group_refs (last_group g l1) l2.
Proof.
  induction l1 as [|[nm at'] l1 IH]; intros g l2; [reflexivity|]. cbn [app group_refs]. rewrite IH, <- app_assoc. reflexivity.
Qed.
Lemma last_group_app g l1 l2 : last_group g (l1 ++ l2) = last_group (last_group g l1) l2.
Proof. apply fold_left_app. Qed.
Lemma descending_app rank r1 r2 : descending rank (r1 ++ r2) <-> descending rank r1 /\ descending rank r2.
Proof.
  unfold descending. split.
  - intros H. split; intros g x Hx; apply H, in_or_app; auto.
  - intros [H1 H2] g x Hx. apply in_app_or in Hx as [Hx|Hx]; auto.
Qed.
Lemma no_id_whole n : no_id n = true -> whole_groups n = true.
Proof.
  induction n as [name attrs kids IH|s|] using node_ind'; cbn [no_id whole_groups]; try reflexivity. intros H.
  apply orb_true_iff in H as [->|H]; [reflexivity|]. apply andb_prop in H as [H H3]. apply andb_prop in H as [H1 H2].
  apply orb_true_iff. right. rewrite H1. cbn [andb]. destruct (String.eqb name "g"); [exact H3|].
  apply forallb_forall. intros x Hx. apply (proj1 (Forall_forall _ _) IH x Hx). exact (proj1 (forallb_forall _ _) H3 x Hx).
Qed.
Lemma no_id_starts n g : no_id n = true -> last_group g (starts n) = g.
Proof.
  revert g. induction n as [name attrs kids IH|s|] using node_ind'; intros g; cbn [no_id starts]; try reflexivity. intros H.
  destruct (is_gradient name); [reflexivity|]. cbn [orb] in H. apply andb_prop in H as [H H3]. apply andb_prop in H as [H1 H2].
  cbn [last_group fold_left snd]. fold (last_group (group_of g attrs) (flat_map starts kids)). unfold group_of. rewrite H2.
  clear -IH H3. induction kids as [|x kids IHk]; [reflexivity|]. cbn [flat_map forallb] in *. inversion IH; subst. apply andb_prop in H3 as [H3 H4].
  rewrite last_group_app, H1 by exact H3. apply IHk; assumption.
Qed.

(** the depth of open <g> after the definitions [ds], starting at [j]; [None]: an end without start *)
Fixpoint level (j : nat) (ds : list definition) : option nat :=
  match ds with
  | [] => Some j
  | d :: r =>
    if String.eqb (d_tag d) "endg" then match j with O => None | S i => level i r end
    else level (if String.eqb (d_tag d) "g" then S j else j) r
  end.
Lemma level_app ds1 : forall j ds2, level j (ds1 ++ ds2) = match level j ds1 with Some i => level i ds2 | None => None end.
Proof.
  induction ds1 as [|d ds1 IH]; intros j ds2; [reflexivity|]. cbn [app level]. destruct (String.eqb (d_tag d) "endg"); [destruct j; [reflexivity|]|]; apply IH.
Qed.

Lemma set_nth_length {A} (a : A) l : forall i, List.length (set_nth l i a) = List.length l.
Proof. induction l; intros [|i]; cbn; auto. Qed.

Section End.
Context {E : Env} (lim calm : bool) (rank : string -> nat) (k fuel : nat).
Context (Hturns : lim = true -> turns (E := E) k) (Hrank : lim = true -> forall x, rank x + k + 1 < fuel).
Notation cursor := (cursor E).

Definition okdef (g : string) (d : definition) : Prop :=
  d_tag d <> "linearGradient"%string /\ d_tag d <> "radialGradient"%string /\ d_tag d <> "defs"%string
  /\ (lim = true -> d_tag d = "use"%string -> forall x, text_attr "href" "" (d_attrs d) = String "#" x -> rank x < rank g)
  /\ (calm = true -> harmless E (d_tag d) (d_attrs d)).
Definition okgroup (g : string) (ds : list definition) : Prop := Forall (okdef g) ds /\ (calm = true -> level 0 ds <> None).
Definition store (c : cursor) : Prop := forall id ds, mget id (sv_defs (c_svg c)) = Some ds -> okgroup id ds.
Definition cur (g : string) (j : nat) (ds : list definition) : Prop :=
  match ds with [] => g = EmptyString | d :: _ => d_id d = g end
  /\ Forall (okdef g) ds /\ (calm = true -> exists m, level 0 ds = Some m /\ j <= m).
Definition notes_ok (c : cursor) : Prop :=
  (c_inTitle c = true -> sv_titles (c_svg c) <> []) /\ (c_inDesc c = true -> sv_descs (c_svg c) <> []).
Definition grad_ok (c : cursor) : Prop :=
  (c_inGrad c = true -> exists p, c_grad c = Some p /\ p < List.length (c_gheap c)) /\ grads_valid c.
(** no panic here: [n] elements are open *)
Definition J (n : nat) (c : cursor) : Prop := n < List.length (c_stack c) /\ notes_ok c /\ grad_ok c.
Definition sd (d g : bool) (cu : string) (j n : nat) (c : cursor) : Prop :=
  c_inDefs c = d /\ c_inGrad c = g /\ store c /\ (if d then cur cu j (c_curDef c) else c_curDef c = []) /\ (calm = true -> J n c).
Definition W (o : outcome unit) (c : cursor) : Prop :=
  (lim = true -> o <> NoFuel) /\ (calm = true -> o <> Panic /\ c_stack c <> []).

(** ** What most functions keep *)
Record same (c c' : cursor) : Prop := mkSame {
  sa_defs : c_inDefs c' = c_inDefs c; sa_grad : c_inGrad c' = c_inGrad c; sa_store : sv_defs (c_svg c') = sv_defs (c_svg c);
  sa_cur : c_curDef c' = c_curDef c; sa_stack : c_stack c' = c_stack c; sa_ptr : c_grad c' = c_grad c;
  sa_heap : List.length (c_gheap c') = List.length (c_gheap c); sa_grads : sv_grads (c_svg c') = sv_grads (c_svg c);
  sa_notes : notes_ok c -> notes_ok c' }.
Lemma sa_refl c : same c c. Proof. constructor; auto. Qed.
Lemma sa_trans a b c : same a b -> same b c -> same a c. Proof. intros [] []. constructor; auto; congruence. Qed.
Lemma sa_pc p c : same c (c_set_pc p c). Proof. constructor; auto. Qed.
Lemma sa_mheap h c : same c (c_set_svg (sv_set_mheap h (c_svg c)) c). Proof. constructor; auto. Qed.
Lemma sa_svg v w h c : same c (c_set_svg (sv_set_viewBox v (sv_set_width w (sv_set_height h (c_svg c)))) c). Proof. constructor; auto. Qed.
Lemma sa_mask m b c : same c (c_set_mask m (c_set_inMask b c)). Proof. constructor; auto. Qed.
Lemma sa_paths l c : same c (c_set_svg (sv_set_paths l (c_svg c)) c). Proof. constructor; auto. Qed.
Lemma sa_masks m c : same c (c_set_svg (sv_set_masks m (c_svg c)) c). Proof. constructor; auto. Qed.
Lemma same_J n c c' : same c c' -> J n c -> J n c'.
Proof.
  intros [] (H1 & H2 & H3 & H4). split; [congruence|]. split; [auto|]. split.
  - rewrite sa_grad0, sa_ptr0, sa_heap0. exact H3.
  - unfold grads_valid. rewrite sa_grads0, sa_heap0. exact H4.
Qed.
Lemma same_sd d g cu j n c c' : same c c' -> sd d g cu j n c -> sd d g cu j n c'.
Proof.
  intros H (H1 & H2 & H3 & H4 & H5). pose proof (same_J n _ _ H) as HJ. destruct H. unfold sd, store. rewrite sa_defs0, sa_grad0, sa_store0, sa_cur0. split; [exact H1|]. split; [exact H2|]. split; [exact H3|]. split; [exact H4|]. auto.
Qed.
Lemma sd_stack d g cu j n c : sd d g cu j n c -> calm = true -> c_stack c <> [].
Proof. intros (_ & _ & _ & _ & H) Hc. destruct (H Hc) as [Hl _]. destruct (c_stack c); [cbn in Hl; lia|discriminate]. Qed.

Definition np {A} (P : cursor -> Prop) (m : M cursor A) : Prop := forall c, P c -> snd (m c) <> Panic.
Lemma fn_np {A} P (m : M cursor A) : fn m -> np P m.
Proof. intros H c _ Hp. specialize (H c). rewrite Hp in H. exact H. Qed.
Ltac wsolve := split; [intros Hlim; solve [discriminate|match goal with H : lim = true -> _ |- _ => destruct (H Hlim eq_refl) end|assumption]|intros Hcalm; split; [solve [discriminate|match goal with H : calm = true -> _ |- _ => destruct (H Hcalm eq_refl) end]|]].
(** a function that keeps [same] *)
Lemma tri_same {A} d g cu j n (m : M cursor A) : keeps same m -> (lim = true -> nf m) -> (calm = true -> np (sd d g cu j n) m) ->
  tri (sd d g cu j n) m (fun _ => sd d g cu j n) W.
Proof.
  intros Hk Hn Hp c Hc. specialize (Hk c). specialize (fun Hl => Hn Hl c). specialize (fun Hl => Hp Hl c Hc). pose proof (same_sd _ _ _ _ _ _ _ Hk Hc) as H1.
  destruct (m c) as [t [a|e| |]]; cbn in *; [exact H1|wsolve..]; eapply sd_stack; eauto.
Qed.
Lemma tri_fn {A} d g cu j n (m : M cursor A) : keeps same m -> fn m -> tri (sd d g cu j n) m (fun _ => sd d g cu j n) W.
Proof. intros H1 H2. apply tri_same; auto using fine_nf, fn_np. Qed.

Lemma np_rectF f attrs : np (fun _ => True) (rectF (E := E) f attrs).
Proof.
  intros c _. unfold rectF, bind at 1.
  assert (H : fine (snd (foldM (rectAttr (E := E)) (fnum E 0, fnum E 0, fnum E 0, fnum E 0, fnum E 0, fnum E 0) attrs c))).
  { apply fn_foldM. intros [[[[[x y] w] h] rx] ry] a. unfold rectAttr.
    repeat match goal with |- fn (if ?b then _ else _) => destruct b end; try apply fn_ret; (apply fn_bind; [apply fn_cParseUnit|intros; apply fn_ret]). }
  destruct (foldM _ _ attrs c) as [c1 [[[[[[x y] w] h] rx] ry]|e| |]]; cbn in H; try discriminate; try contradiction.
  destruct (_ || _); [discriminate|]. unfold bind, curXY, gets. cbv beta iota zeta.
  assert (Hr : forall a b c d u v p, addRoundRect (E := E) f a b c d u v (fnum E 0) p <> Panic).
  { clear. intros. unfold addRoundRect. destruct (_ || _); [discriminate|]. cbv zeta.
    assert (Hg : forall m a t l p, roundGap (E := E) f m a t l p <> Panic).
    { clear. intros. unfold roundGap, addCircArc. destruct (raise_angle _ _ _) eqn:Hr; try discriminate. exfalso. exact (raise_no_panic _ _ _ Hr). }
    repeat match goal with |- obind (roundGap ?f ?m ?a ?t ?l ?p) _ <> Panic => pose proof (Hg m a t l p); destruct (roundGap f m a t l p); cbn [obind]; try congruence; try discriminate end. }
  unfold lift. match goal with |- context [addRoundRect f ?a ?b ?c ?d ?u ?v ?w ?p] => specialize (Hr a b c d u v p); destruct (addRoundRect f a b c d u v w p) end; cbn in *; congruence.
Qed.
(** elements without effect on definitions and gradients *)
Definition inert (name : string) : bool :=
  negb (existsb (String.eqb name) ["stop"; "linearGradient"; "radialGradient"; "defs"; "use"]%string).
Lemma draw_tri f name df attrs d g cu j n : (lim = true -> k <= f) -> drawFunc (E := E) f name = Some df -> inert name = true ->
  tri (sd d g cu j n) (df attrs) (fun _ => sd d g cu j n) W.
Proof.
  intros Hf H Hi. unfold inert in Hi. cbn [existsb] in Hi.
  destruct (String.eqb_spec name "stop"); [discriminate|]. destruct (String.eqb_spec name "linearGradient"); [discriminate|].
  destruct (String.eqb_spec name "radialGradient"); [discriminate|]. destruct (String.eqb_spec name "defs") as [->|N4]; [discriminate|].
  apply tri_same.
  - clear Hi. unfold drawFunc in H.
    repeat match type of H with (if String.eqb name ?s then _ else _) = _ => destruct (String.eqb_spec name s); [injection H as <-|] end; try congruence.
    + apply (kp_svgF _ sa_refl sa_trans sa_pc sa_svg). + apply (keeps_ret _ sa_refl). + apply (kp_lineF _ sa_refl sa_trans sa_pc).
    + apply (kp_rectF _ sa_refl sa_trans sa_pc). + apply (kp_circleF _ sa_refl sa_trans sa_pc). + apply (kp_circleF _ sa_refl sa_trans sa_pc).
    + apply (kp_polylineF _ sa_refl sa_trans sa_pc). + apply (kp_polygonF _ sa_refl sa_trans sa_pc). + apply (kp_pathF _ sa_refl sa_trans sa_pc).
    + intros c. constructor; try reflexivity. intros [H1 H2]. split; cbn; [exact H1|]. intros _ Hn. apply app_eq_nil in Hn as [_ Hn]. discriminate.
    + intros c. constructor; try reflexivity. intros [H1 H2]. split; cbn; [|exact H2]. intros _ Hn. apply app_eq_nil in Hn as [_ Hn]. discriminate.
    + apply (kp_maskF _ sa_refl sa_trans sa_mask).
  - intros Hl. exact (nf_drawFunc k (Hturns Hl) f name df attrs (Hf Hl) H).
  - intros _. destruct (String.eqb_spec name "rect") as [->|N5]. { injection H as <-. intros c _. apply (np_rectF f attrs c I). }
    apply fn_np. assert (H' : drawFunc (E := E) f name = Some df) by exact H. clear Hi.
    unfold drawFunc in H.
    repeat match type of H with (if String.eqb name ?s then _ else _) = _ => destruct (String.eqb_spec name s); [injection H as <-|] end; try congruence.
    + apply fn_svgF. + apply fn_ret. + apply fn_lineF. + apply fn_circleF. + apply fn_circleF.
    + apply fn_polylineF. + apply fn_polygonF. + apply fn_pathF. + intros c. exact I. + intros c. exact I. + apply fn_maskF.
Qed.

(** ** Styles *)
Lemma bad_panic s : panic_text s <-> bad_colour s. Proof. reflexivity. Qed.
Lemma np_parseTransform v : np (fun c => c_stack c <> []) (parseTransform (E := E) v).
Proof.
  intros c Hc. unfold parseTransform, bind, topStyle. destruct (c_stack c); [congruence|].
  assert (H : fn (foldM (transformStep (E := E)) (st_transform s) (rev (split1 ")" v)))) by (apply fn_foldM; intros; apply fn_transformStep).
  specialize (H c). destruct (foldM _ _ _ c) as [t [| | |]]; cbn in *; congruence || contradiction.
Qed.
Lemma np_readStyleAttr st key v : (key = "fill"%string \/ key = "stroke"%string -> ~ bad_colour v) ->
  np (fun c => c_stack c <> [] /\ grads_valid c) (readStyleAttr (E := E) st key v).
Proof.
  intros Hv c [Hs Hg] Hp.
  destruct (String.eqb_spec key "fill") as [->|N1]. { eapply paint_panics in Hp; auto. exact (Hv (or_introl eq_refl) Hp). }
  destruct (String.eqb_spec key "stroke") as [->|N2]. { eapply paint_panics in Hp; auto. exact (Hv (or_intror eq_refl) Hp). }
  destruct (String.eqb_spec key "transform") as [->|N3].
  { unfold readStyleAttr in Hp. cbn [String.eqb Ascii.eqb Bool.eqb orb negb] in Hp. unfold bind in Hp.
    pose proof (np_parseTransform v c Hs) as H. destruct (parseTransform v c) as [t [| | |]]; cbn in *; congruence. }
  assert (H : fn (readStyleAttr (E := E) st key v)).
  { unfold readStyleAttr. apply String.eqb_neq in N1, N2, N3. rewrite N1, N2, N3.
    repeat match goal with
    | |- fn (if _ then _ else _) => apply fn_if
    | |- fn (match ?x with _ => _ end) => destruct x
    | |- fn (bind _ _) => apply fn_bind
    | |- forall _, fn _ => intros ?
    | |- fn (ret _) => apply fn_ret
    | |- fn (handleError _) => apply fn_handleError
    | |- fn (cParseUnit _ _) => apply fn_cParseUnit
    | |- fn (lift (parseBasicFloat _)) => apply fn_lift, fine_parseBasicFloat
    | |- fn (lift (parseSelector _)) => apply fn_lift, fine_parseSelector
    | |- fn (parseDashes _) => apply fn_parseDashes
    | |- fn (appendStr _ _) => apply fn_appendStr
    | |- fn (let _ := _ in _) => cbv zeta
    end. }
  specialize (H c). rewrite Hp in H. exact H.
Qed.
Lemma np_pushStyle name attrs : harmless E name attrs -> np (fun c => c_stack c <> [] /\ grads_valid c) (pushStyle (E := E) attrs).
Proof.
  intros [Hh _] c [Hs Hg]. unfold pushStyle, bind at 1. unfold topStyle. destruct (c_stack c) as [|top rest] eqn:Hst; [congruence|].
  assert (T : tri (fun c => c_stack c <> [] /\ grads_valid c) (foldM (stylePair (E := E)) top (stylePairs (E := E) attrs)) (fun _ c => c_stack c <> [] /\ grads_valid c) (fun o _ => o <> Panic)).
  { apply (tri_foldM (fun _ c => c_stack c <> [] /\ grads_valid c)). intros st pair Hin c1 Hc1.
    pose proof (kp_stylePair same sa_refl sa_trans sa_pc sa_mheap st pair c1) as Hk.
    assert (Hnp : snd (stylePair st pair c1) <> Panic).
    { unfold stylePair. destruct (split1 ":" pair) as [|key [|v r]] eqn:Hsp; try discriminate. apply np_readStyleAttr; [|exact Hc1].
      intros Hkey. unfold stylePairs in Hin. apply in_flat_map in Hin as (a & Ha & Hin).
      apply (Hh a (trimSpace (toLower E key)) (trimSpace v) Ha); [|exact Hkey]. exists key, v, r. split; [reflexivity|]. split; [reflexivity|].
      destruct (String.eqb (toLower E (a_name a)) "style"). { exists pair. auto. } destruct Hin as [<-|[]]. exact Hsp. }
    destruct (stylePair st pair c1) as [t [a|e| |]]; cbn in *; try congruence; try discriminate.
    destruct Hk. destruct Hc1 as [K1 K2]. split; [congruence|]. unfold grads_valid. rewrite sa_grads0, sa_heap0. exact K2. }
  assert (Hc : c_stack c <> [] /\ grads_valid c) by (rewrite Hst; split; [discriminate|exact Hg]).
  specialize (T c Hc). unfold bind. destruct (foldM _ _ _ c) as [t [a|e| |]]; cbn in *; try congruence; discriminate.
Qed.
Lemma sd_push d g cu j n c s : sd d g cu j n c -> sd d g cu j (S n) (c_set_stack (s :: c_stack c) c).
Proof. intros (H1 & H2 & H3 & H4 & H5). split; [exact H1|]. split; [exact H2|]. split; [exact H3|]. split; [exact H4|]. intros Hc. destruct (H5 Hc) as (K1 & K2). split; [cbn; lia|exact K2]. Qed.
Lemma push_stack attrs (c : cursor) : c_stack c <> [] -> c_stack (fst (pushStyle (E := E) attrs c)) <> [].
Proof.
  intros Hs. unfold pushStyle, bind at 1. unfold topStyle. destruct (c_stack c) as [|top rest] eqn:Hst; [congruence|].
  pose proof (kp_foldM same sa_refl sa_trans (stylePair (E := E)) (stylePairs (E := E) attrs) top (kp_stylePair same sa_refl sa_trans sa_pc sa_mheap) c) as H.
  unfold bind. destruct (foldM _ _ _ c) as [t [a|e| |]]; cbn in *; destruct H; congruence.
Qed.
Lemma push_tri name attrs d g cu j n : (calm = true -> harmless E name attrs) ->
  tri (sd d g cu j n) (pushStyle (E := E) attrs) (fun _ => sd d g cu j (S n)) W.
Proof.
  intros Hh c Hc. pose proof (nf_pushStyle attrs c) as Hn.
  assert (Hp : calm = true -> snd (pushStyle attrs c) <> Panic).
  { intros H. apply (np_pushStyle name attrs (Hh H)). split; [eapply sd_stack; eauto|]. destruct Hc as (_ & _ & _ & _ & K). destruct (K H) as (_ & _ & _ & K'). exact K'. }
  assert (Hst : calm = true -> c_stack (fst (pushStyle attrs c)) <> []).
  { intros H. apply push_stack. eapply sd_stack; eauto. }
  destruct (pushStyle attrs c) as [t [[]|e| |]] eqn:He; cbn in *; [|wsolve; auto..].
  destruct (pushStyle_inv same sa_refl sa_trans sa_pc sa_mheap _ _ _ He) as (st & c1 & H1 & ->).
  apply sd_push. eapply same_sd; eassumption.
Qed.
Lemma pop_tri d g cu j n : tri (sd d g cu j (S n)) (popStyle (E := E)) (fun _ => sd d g cu j n) W.
Proof.
  intros c Hc. pose proof (sd_stack _ _ _ _ _ _ Hc) as Hs. unfold popStyle. destruct (c_stack c) as [|s r] eqn:Hst.
  - split; [intros _; discriminate|]. intros H. destruct (Hs H eq_refl).
  - destruct Hc as (H1 & H2 & H3 & H4 & H5). split; [exact H1|]. split; [exact H2|]. split; [exact H3|]. split; [exact H4|].
    intros H. destruct (H5 H) as (K1 & K2). rewrite Hst in K1. split; [cbn in *; lia|exact K2].
Qed.
Lemma collect_tri d g cu j n : tri (sd d g cu j n) (collectPath (E := E)) (fun _ => sd d g cu j n) W.
Proof.
  apply tri_same.
  - apply (kp_collectPath same sa_refl sa_trans sa_pc sa_mask sa_paths).
  - intros _. apply nf_collectPath.
  - intros Hc c Hsd. pose proof (sd_stack _ _ _ _ _ _ Hsd Hc) as Hs. unfold collectPath, bind, gets. destruct (pc_path (c_pc c)); [discriminate|].
    unfold topStyle. destruct (c_inMask c); [destruct (c_mask c)|]; (destruct (c_stack c); [congruence|]) || idtac; discriminate.
Qed.
Lemma sd_le d g cu j n m c : m <= n -> sd d g cu j n c -> sd d g cu j m c.
Proof. intros Hm (H1 & H2 & H3 & H4 & H5). split; [exact H1|]. split; [exact H2|]. split; [exact H3|]. split; [exact H4|]. intros Hc. destruct (H5 Hc) as (K1 & K2). split; [lia|exact K2]. Qed.
Lemma tri_info {A} (P : cursor -> Prop) (m : M cursor A) Q (W0 : outcome unit -> cursor -> Prop) (K : A -> Prop) :
  tri P m Q W0 -> (forall c c' a, m c = (c', Ret a) -> K a) -> tri P m (fun a c => Q a c /\ K a) W0.
Proof. intros H1 H2 c Hc. specialize (H1 c Hc). specialize (H2 c). destruct (m c) as [t [a|e| |]]; eauto. Qed.
Lemma useAttr_href attrs : forall h x y (c c' : cursor) l, foldM (useAttr (E := E)) (h, x, y) attrs c = (c', Ret l) -> fst (fst l) = text_attr "href" h attrs.
Proof.
  induction attrs as [|a attrs IH]; intros h x y c c' l; cbn [foldM text_attr].
  - unfold ret. intros H. injection H as _ <-. reflexivity.
  - unfold bind. unfold useAttr at 1, is. destruct (String.eqb (a_name a) "href"); [intros H; apply IH in H; exact H|].
    destruct (String.eqb (a_name a) "x"); [|destruct (String.eqb (a_name a) "y")]; unfold bind, cParseUnit.
    + destruct (resolveUnit _ _ _); try discriminate. apply IH.
    + destruct (resolveUnit _ _ _); try discriminate. apply IH.
    + apply IH.
Qed.
Lemma fn_useAttr l a : fn (useAttr (E := E) l a).
Proof.
  destruct l as [[h x] y]. unfold useAttr. repeat match goal with |- fn (if ?b then _ else _) => destruct b end; try apply fn_ret; (apply fn_bind; [apply fn_cParseUnit|intros; apply fn_ret]).
Qed.
Definition may_use (f : nat) (attrs : list attr) : Prop :=
  lim = true -> 0 < f /\ forall x, text_attr "href" "" attrs = String "#" x -> rank x + k + 1 < f.
Lemma useLoop_tri f id d cu j n ds :
  (lim = true -> rank id + k + 1 < S f) -> Forall (okdef id) ds ->
  (forall attrs n, may_use f attrs -> tri (sd d false cu j n) (useF (E := E) f attrs) (fun _ => sd d false cu j n) W) ->
  forall i, (calm = true -> level i ds <> None) ->
  tri (sd d false cu j (n + i)) (useLoop (E := E) (fun tag => if String.eqb tag "use" then Some (useF f) else drawFunc f tag) ds) (fun _ => sd d false cu j n) W.
Proof.
  intros Hf Hds Huse. induction Hds as [|def ds (O1 & O2 & O3 & O4 & O5) Hds IH]; intros i Hi; cbn [useLoop].
  - apply tri_ret. intros c. apply sd_le. lia.
  - cbn [level] in Hi. destruct (String.eqb_spec (d_tag def) "endg") as [He|He].
    + destruct i as [|i].
      * destruct calm eqn:Hcalm; [destruct (Hi eq_refl eq_refl)|].
        assert (Hw : forall d g cu j n m c, sd d g cu j n c -> sd d g cu j m c).
        { clear - Hcalm. intros d g cu j n m c (H1 & H2 & H3 & H4 & H5). split; [exact H1|]. split; [exact H2|]. split; [exact H3|]. split; [exact H4|]. rewrite Hcalm. discriminate. }
        eapply tri_bind. { eapply tri_pre; [apply pop_tri|]. intros c. apply (Hw d false cu j (n + 0) (S (n + 0))). }
        intros []. apply IH. discriminate.
      * eapply tri_bind. { eapply tri_pre; [apply pop_tri|]. intros c. replace (n + S i) with (S (n + i)) by lia. exact (fun h => h). }
        intros []. apply IH. exact Hi.
    + eapply tri_bind. { apply (push_tri (d_tag def)). exact O5. } intros [].
      match goal with |- tri _ (match ?x with _ => _ end) _ _ => destruct x as [df|] eqn:Hdf end.
      2:{ eapply tri_post; [apply tri_fn; [apply (kp_handleError same sa_refl sa_trans sa_pc)|apply fn_handleError]|]. intros [] c. apply sd_le. lia. }
      eapply (tri_bind _ _ _ (fun _ => sd d false cu j (S (n + i)))).
      { destruct (String.eqb_spec (d_tag def) "use") as [Hu|Hu].
        - injection Hdf as <-. apply Huse. intros Hl. specialize (Hf Hl). split; [lia|]. intros x Hx. specialize (O4 Hl Hu x Hx). lia.
        - destruct (String.eqb_spec (d_tag def) "stop") as [Hs|Hs].
          + rewrite Hs in Hdf. injection Hdf as <-. intros c Hc. unfold stopF, bind, gets. destruct Hc as (H1 & H2 & H3). rewrite H2. exact (conj H1 (conj H2 H3)).
          + apply (draw_tri f (d_tag def)); [intros Hl; specialize (Hf Hl); lia|exact Hdf|].
            unfold inert. cbn [existsb]. apply String.eqb_neq in Hs, O1, O2, O3, Hu. rewrite Hs, O1, O2, O3, Hu. reflexivity. }
      intros []. destruct (String.eqb (d_tag def) "g"); cbn [negb].
      * eapply (tri_bind _ _ _ (fun _ => sd d false cu j (n + S i))). { apply tri_ret. intros c. replace (n + S i) with (S (n + i)) by lia. auto. }
        intros []. apply IH. exact Hi.
      * eapply tri_bind; [apply pop_tri|]. intros []. apply IH. exact Hi.
Qed.
Lemma useF_tri f : forall attrs d cu j n, may_use f attrs -> tri (sd d false cu j n) (useF (E := E) f attrs) (fun _ => sd d false cu j n) W.
Proof.
  induction f as [|f IH]; intros attrs d cu j n Hm; cbn [useF].
  - apply tri_nofuel. intros c Hc. split; [intros Hl; destruct (Hm Hl); lia|]. intros Hcalm. split; [discriminate|]. eapply sd_stack; eauto.
  - eapply tri_bind. { apply (tri_info _ _ (fun _ => sd d false cu j n) _ (fun l => fst (fst l) = text_attr "href" "" attrs)).
      - apply tri_fn; [apply (kp_foldM same sa_refl sa_trans); apply (kp_useAttr same sa_refl sa_trans)|apply fn_foldM, fn_useAttr].
      - intros c c' a. apply useAttr_href. }
    intros [[href x] y]. cbn [fst].
    eapply (tri_bind _ _ _ (fun _ c => sd d false cu j n c /\ href = text_attr "href" "" attrs)).
    { apply tri_modify. intros c [Hc Hh]. split; [|exact Hh]. eapply same_sd; [apply sa_pc|exact Hc]. }
    intros []. apply (tri_deferred _ _ _ (fun _ => sd d false cu j n) _ W).
    2:{ intros [] c. apply same_sd, sa_pc. } 2:{ intros o c H. exact H. }
    assert (Herr : forall e, tri (fun c => sd d false cu j n c /\ href = text_attr "href" "" attrs) (raise e) (fun _ : unit => sd d false cu j n) W).
    { intros e. apply tri_raise. intros c [Hc _]. split; [intros _; discriminate|]. intros Hcalm. split; [discriminate|]. eapply sd_stack; eauto. }
    destruct (String.eqb href ""); [apply Herr|]. destruct (hasPrefix href "#") eqn:Hp; cbn [negb]; [|apply Herr].
    apply prefix_iff in Hp as (id & Hid). cbn in Hid.
    intros c [Hc Hh]. unfold bind at 1. unfold lift.
    assert (Hsl : slice href 1 (String.length href) = Ret id). { rewrite Hid. apply (slice_tail "#" id); reflexivity. }
    rewrite Hsl. cbv beta iota. unfold bind, gets. cbv beta iota.
    destruct (mget id (sv_defs (c_svg c))) as [ds|] eqn:Hg.
    2:{ exact (Herr _ c (conj Hc Hh)). }
    assert (Hok : okgroup id ds) by (destruct Hc as (_ & _ & Hst & _); exact (Hst _ _ Hg)). destruct Hok as [Ho1 Ho2].
    assert (Hr : lim = true -> rank id + k + 1 < S f). { intros Hl. apply (proj2 (Hm Hl)). congruence. }
    pose proof (useLoop_tri f id d cu j n ds Hr Ho1 (fun attrs n => IH attrs d cu j n) 0 Ho2) as T. rewrite Nat.add_0_r in T. exact (T c Hc).
Qed.

(** ** Gradients *)
Definition inner (d : bool) (cu : string) (j n : nat) (c : cursor) : Prop :=
  sd d true cu j n c /\ (calm = true -> exists p, c_grad c = Some p /\ p < List.length (c_gheap c)).
Lemma inner_stack d cu j n c : inner d cu j n c -> calm = true -> c_stack c <> [].
Proof. intros [H _]. eapply sd_stack; eauto. Qed.
Lemma sd_inner d cu j n c : sd d true cu j n c -> inner d cu j n c.
Proof. intros H. split; [exact H|]. destruct H as (_ & H & _ & _ & H1). intros Hc. destruct (H1 Hc) as (_ & _ & H2 & _). auto. Qed.
Lemma onGrad_tri f d cu j n : tri (sd d true cu j n) (onGrad (E := E) f) (fun _ => sd d true cu j n) W.
Proof.
  intros c Hc. pose proof (sd_stack _ _ _ _ _ _ Hc) as Hs. pose proof (proj2 (sd_inner _ _ _ _ _ Hc)) as Hp. unfold onGrad.
  destruct (c_grad c) as [p|] eqn:Hg.
  2:{ split; [intros _; discriminate|]. intros H. destruct (Hp H) as (p & Hx & _). discriminate. }
  destruct (nth_error (c_gheap c) p) as [g|] eqn:Hn.
  2:{ split; [intros _; discriminate|]. intros H. destruct (Hp H) as (q & Hx & Hq). injection Hx as ->. apply nth_error_None in Hn. lia. }
  eapply same_sd; [|exact Hc]. constructor; try reflexivity; auto. cbn. apply set_nth_length.
Qed.
Lemma registerGrad_tri id d cu j n : tri (sd d true cu j n) (registerGrad (E := E) id) (fun _ => sd d true cu j n) W.
Proof.
  intros c Hc. pose proof (proj2 (sd_inner _ _ _ _ _ Hc)) as Hp. unfold registerGrad. destruct (c_grad c) as [p|] eqn:Hg.
  2:{ split; [intros _; discriminate|]. intros H. destruct (Hp H) as (p & Hx & _). discriminate. }
  destruct Hc as (H1 & H2 & H3 & H4 & H5). split; [exact H1|]. split; [exact H2|]. split; [exact H3|]. split; [exact H4|].
  intros H. destruct (H5 H) as (K1 & K2 & K3 & K4). split; [exact K1|]. split; [exact K2|]. split.
  - intros _. destruct (Hp H) as (q & Hx & Hq). exists p. split; [exact Hg|]. cbn. injection Hx as ->. exact Hq.
  - intros i q. cbn [c_svg c_set_svg sv_grads sv_set_grads c_gheap]. rewrite mget_put. destruct (String.eqb i id); [|apply K4].
    intros Hx. injection Hx as <-. destruct (Hp H) as (q0 & Hx & Hq). injection Hx as ->. exact Hq.
Qed.
Lemma np_tri {A} d g cu j n (m : M cursor A) : keeps same m -> (lim = true -> nf m) -> np (fun c => c_stack c <> []) m ->
  tri (sd d g cu j n) m (fun _ => sd d g cu j n) W.
Proof. intros H1 H2 H3. apply tri_same; auto. intros Hc c Hs. apply H3. eapply sd_stack; eauto. Qed.
Lemma readGradAttr_tri a d cu j n : tri (sd d true cu j n) (readGradAttr (E := E) a) (fun _ => sd d true cu j n) W.
Proof.
  unfold readGradAttr.
  repeat (apply tri_if || apply onGrad_tri || (apply tri_ret; auto; fail)).
  eapply tri_bind; [|intros m; apply onGrad_tri].
  apply np_tri; [apply (kp_parseTransform same sa_refl sa_trans sa_pc)|intros _; apply nf_parseTransform|apply np_parseTransform].
Qed.
Lemma theGrad_tri d cu j n : tri (sd d true cu j n) (theGrad (E := E)) (fun _ => sd d true cu j n) W.
Proof.
  intros c Hc. pose proof (proj2 (sd_inner _ _ _ _ _ Hc)) as Hp. unfold theGrad. destruct (c_grad c) as [p|] eqn:Hg.
  2:{ split; [intros _; discriminate|]. intros H. destruct (Hp H) as (p & Hx & _). discriminate. }
  unfold idx. destruct (nth_error (c_gheap c) p) as [g|] eqn:Hn; [exact Hc|].
  split; [intros _; discriminate|]. intros H. destruct (Hp H) as (q & Hx & Hq). injection Hx as ->. apply nth_error_None in Hn. lia.
Qed.
Lemma resolve_tri vb s p d cu j n : tri (sd d true cu j n) (lift (resolveUnit (E := E) vb s p)) (fun _ => sd d true cu j n) W.
Proof. apply tri_fn; [apply (keeps_lift _ sa_refl)|apply fn_lift, fine_resolveUnit]. Qed.
Lemma newGrad_tri d g cu j n : tri (sd d g cu j n) (modify (c_set_inGrad true) ;; newGrad (E := E)) (fun _ => sd d true cu j n) W.
Proof.
  intros c (H1 & H2 & H3 & H4 & H5). cbn. split; [exact H1|]. split; [reflexivity|]. split; [exact H3|]. split; [exact H4|].
  intros H. destruct (H5 H) as (K1 & K2 & K3 & K4). split; [exact K1|]. split; [exact K2|]. split.
  - intros _. cbn. eexists. split; [reflexivity|]. rewrite app_length. cbn. lia.
  - intros i q Hq. cbn in *. rewrite app_length. specialize (K4 _ _ Hq). lia.
Qed.
Lemma tri_assoc {A B D} (P : cursor -> Prop) (m : M cursor A) (f : A -> M cursor B) (h : B -> M cursor D) Q (W0 : outcome unit -> cursor -> Prop) :
  tri P (x <- (y <- m ;; f y) ;; h x) Q W0 -> tri P (y <- m ;; x <- f y ;; h x) Q W0.
Proof. intros H c Hc. specialize (H c Hc). unfold bind in *. destruct (m c) as [t [a|e| |]]; exact H. Qed.
Lemma linear_tri attrs d g cu j n : tri (sd d g cu j n) (linearGradientF (E := E) attrs) (fun _ => sd d true cu j n) W.
Proof.
  unfold linearGradientF. apply (tri_assoc _ _ (fun _ => newGrad)). eapply tri_bind; [apply newGrad_tri|]. intros [].
  eapply (tri_bind _ _ _ (fun _ => sd d true cu j n)).
  { apply (tri_foldM (fun _ => sd d true cu j n)). intros [[[x1 y1] x2] y2] a _. unfold linAttr.
    repeat (apply tri_if || (apply tri_ret; auto; fail)).
    - eapply tri_bind; [apply registerGrad_tri|]. intros []. apply tri_ret. auto.
    - eapply tri_bind; [apply readGradAttr_tri|]. intros []. apply tri_ret. auto. }
  intros [[[x1 y1] x2] y2]. eapply tri_bind; [apply theGrad_tri|]. intros gr. cbv zeta.
  repeat (eapply tri_bind; [apply resolve_tri|intros ?]). apply onGrad_tri.
Qed.
Lemma radial_tri attrs d g cu j n : tri (sd d g cu j n) (radialGradientF (E := E) attrs) (fun _ => sd d true cu j n) W.
Proof.
  unfold radialGradientF. apply (tri_assoc _ _ (fun _ => newGrad)). eapply tri_bind; [apply newGrad_tri|]. intros [].
  eapply (tri_bind _ _ _ (fun _ => sd d true cu j n)).
  { apply (tri_foldM (fun _ => sd d true cu j n)). intros [[[[[cx cy] fx] fy] r] fr] a _. unfold radAttr.
    repeat (apply tri_if || (apply tri_ret; auto; fail)).
    - eapply tri_bind; [apply registerGrad_tri|]. intros []. apply tri_ret. auto.
    - eapply tri_bind; [apply readGradAttr_tri|]. intros []. apply tri_ret. auto. }
  intros [[[[[cx cy] fx] fy] r] fr]. cbv zeta. eapply tri_bind; [apply theGrad_tri|]. intros gr.
  repeat (eapply tri_bind; [apply resolve_tri|intros ?]). apply onGrad_tri.
Qed.
Lemma stop_tri attrs d cu j n : (calm = true -> harmless E "stop" attrs) -> tri (sd d true cu j n) (stopF (E := E) attrs) (fun _ => sd d true cu j n) W.
Proof.
  intros Hh. unfold stopF. eapply (tri_bind _ _ _ (fun _ => sd d true cu j n)). { apply tri_gets. auto. } intros b. apply tri_if; [|apply tri_ret; auto].
  eapply (tri_bind _ _ _ (fun _ => sd d true cu j n)); [|intros st; apply onGrad_tri].
  apply (tri_foldM (fun _ => sd d true cu j n)). intros st a Ha. unfold stopAttr.
  apply tri_if. { eapply tri_bind; [apply tri_fn; [apply (keeps_lift _ sa_refl)|apply fn_lift, fine_readFraction]|]. intros x. apply tri_ret. auto. }
  destruct (is a "stop-color") eqn:Hn.
  - eapply (tri_bind _ _ _ (fun _ => sd d true cu j n)); [|intros x; apply tri_ret; auto].
    apply tri_same; [apply (keeps_lift _ sa_refl)|intros _; apply nf_lift, onf_parseSVGColor|].
    intros Hc c _ Hp. cbn [lift snd] in Hp. apply (parseSVGColor_panic E) in Hp.
    apply String.eqb_eq in Hn. destruct (Hh Hc) as [_ Hs]. specialize (Hs eq_refl). unfold appendStyleAttrs in Ha.
    assert (Hfind : forall l, findStyle l <> EmptyString -> exists b, List.In b l /\ a_name b = "style"%string /\ a_val b = findStyle l).
    { clear. induction l as [|b l IH]; cbn; [congruence|]. destruct (String.eqb_spec (a_name b) "style"); intros H; [eauto|]. destruct (IH H) as (x & ? & ? & ?). eauto. }
    destruct (String.eqb_spec (findStyle attrs) "") as [H0|H0]. { exact (Hs a (a_val a) Ha (or_introl (conj Hn eq_refl)) Hp). }
    apply in_app_or in Ha as [Ha|Ha]. { exact (Hs a (a_val a) Ha (or_introl (conj Hn eq_refl)) Hp). }
    apply filter_In in Ha as [Ha _]. apply in_flat_map in Ha as (dd & Hd & Ha).
    destruct (cut1 ":" dd) as [[key val]|] eqn:Hcut; [|destruct Ha]. destruct Ha as [<-|[]]. cbn [a_name a_val] in *.
    destruct (Hfind _ H0) as (b0 & Hb & Hb1 & Hb2). rewrite <- Hb2 in Hd.
    refine (Hs b0 (trimSpace val) Hb (or_intror (conj Hb1 _)) Hp). exists dd, key, val. auto.
  - apply tri_if; [|apply tri_ret; auto].
    eapply tri_bind; [apply tri_fn; [apply (keeps_lift _ sa_refl)|apply fn_lift, fine_parseBasicFloat]|]. intros x. apply tri_ret. auto.
Qed.

(** ** Start elements *)
Lemma collect_err : tri (fun c => calm = true -> c_stack c <> []) (collectPath (E := E)) (fun _ c => calm = true -> c_stack c <> []) W.
Proof.
  intros c Hc. pose proof (kp_collectPath same sa_refl sa_trans sa_pc sa_mask sa_paths c) as Hk. pose proof (nf_collectPath c) as Hn.
  assert (Hp : calm = true -> snd (collectPath c) <> Panic).
  { intros Hcalm. specialize (Hc Hcalm). unfold collectPath, bind, gets. destruct (pc_path (c_pc c)); [discriminate|].
    unfold topStyle. destruct (c_inMask c); [destruct (c_mask c)|]; (destruct (c_stack c); [congruence|]) || idtac; discriminate. }
  assert (Hs : calm = true -> c_stack (fst (collectPath c)) <> []). { intros H. destruct Hk as [_ _ _ _ -> _ _ _ _]. auto. }
  destruct (collectPath c) as [t [a|e| |]]; cbn in *; [exact Hs|wsolve; auto..].
Qed.
Lemma start_gen name attrs (P Q : cursor -> Prop) :
  (forall c, P c -> c_inDefs c && negb (String.eqb name "radialGradient" || String.eqb name "linearGradient" || c_inGrad c) = false) ->
  (forall df, drawFuncs fuel name = Some df -> tri P (df attrs) (fun _ => Q) W) ->
  (drawFuncs (E := E) fuel name = None -> tri P (handleError (cannotProcess name)) (fun _ => Q) W) ->
  tri Q (collectPath (E := E)) (fun _ => Q) W ->
  tri P (readStartElement fuel name attrs) (fun _ => Q) W.
Proof.
  intros Hskip Hdf Hnone Hcol c Hc. unfold readStartElement, bind at 1, gets. cbv zeta. rewrite (Hskip c Hc).
  destruct (drawFuncs fuel name) as [df|]; [|exact (Hnone eq_refl c Hc)].
  assert (T : tri P (err <- attempt (df attrs) ;; collectPath ;; match err with Some e => raise e | None => ret tt end) (fun _ => Q) W).
  { eapply tri_bind; [apply tri_attempt, (Hdf _ eq_refl)|]. intros [e|]; cbv beta iota.
    - eapply (tri_bind _ _ _ (fun _ c => calm = true -> c_stack c <> [])).
      + eapply tri_pre; [apply collect_err|]. intros c1 [_ H] Hcalm. apply (H Hcalm).
      + intros []. apply tri_raise. intros c1 H. split; [intros _; discriminate|]. intros Hcalm. split; [discriminate|auto].
    - eapply tri_bind; [exact Hcol|]. intros []. apply tri_ret. auto. }
  exact (T c Hc).
Qed.
Lemma hE_tri s d g cu j n : tri (sd d g cu j n) (handleError (E := E) s) (fun _ => sd d g cu j n) W.
Proof. apply tri_fn; [apply (kp_handleError same sa_refl sa_trans sa_pc)|apply fn_handleError]. Qed.
Lemma start_out name attrs n : is_gradient name = false -> name <> "defs"%string -> (calm = true -> harmless E name attrs) ->
  tri (sd false false "" 0 n) (stepToken fuel (TStart name attrs)) (fun _ => sd false false "" 0 (S n)) W.
Proof.
  intros Hg Hd Hh. cbn [stepToken]. eapply tri_bind; [apply (push_tri name), Hh|]. intros [].
  apply start_gen; [|..|intros _; apply hE_tri|apply collect_tri].
  - intros c (-> & _). reflexivity.
  - intros df Hdf. unfold drawFuncs in Hdf. destruct (String.eqb_spec name "use") as [Hu|Hu].
    + injection Hdf as <-. apply useF_tri. intros Hl. split; [specialize (Hrank Hl EmptyString); lia|]. intros x _. apply (Hrank Hl x).
    + destruct (String.eqb_spec name "stop") as [->|Hs].
      * injection Hdf as <-. intros c Hc. unfold stopF, bind, gets. destruct Hc as (H1 & H2 & H3). rewrite H2. exact (conj H1 (conj H2 H3)).
      * apply (draw_tri fuel name); [intros Hl; specialize (Hrank Hl EmptyString); lia|exact Hdf|].
        unfold is_gradient in Hg. apply orb_false_iff in Hg as [G1 G2]. apply String.eqb_neq in Hs, Hd, Hu. unfold inert. cbn [existsb]. rewrite Hs, Hd, Hu, G1, G2. reflexivity.
Qed.
Lemma start_defs_out attrs n : (calm = true -> harmless E "defs" attrs) ->
  tri (sd false false "" 0 n) (stepToken fuel (TStart "defs" attrs)) (fun _ => sd true false "" 0 (S n)) W.
Proof.
  intros Hh. cbn [stepToken]. eapply tri_bind; [apply (push_tri "defs"), Hh|]. intros [].
  apply start_gen; [|..|discriminate|apply collect_tri].
  - intros c (-> & _). reflexivity.
  - intros df Hdf. cbn in Hdf. injection Hdf as <-. intros c (H1 & H2 & H3 & H4 & H5). cbn. split; [reflexivity|]. split; [exact H2|]. split; [exact H3|].
    split; [|exact H5]. cbn. rewrite H4. split; [reflexivity|]. split; [constructor|]. intros _. exists 0. auto.
Qed.
Lemma start_gradient_any name attrs d cu j n : is_gradient name = true -> (calm = true -> harmless E name attrs) ->
  tri (sd d false cu j n) (stepToken fuel (TStart name attrs)) (fun _ => sd d true cu j (S n)) W.
Proof.
  intros Hg Hh. cbn [stepToken]. eapply tri_bind; [apply (push_tri name), Hh|]. intros [].
  unfold is_gradient in Hg. apply orb_true_iff in Hg as [Hg|Hg]; apply String.eqb_eq in Hg; subst name.
  - apply start_gen; [|..|discriminate|apply collect_tri].
    + intros c _. cbn. apply andb_false_r.
    + intros df Hdf. injection Hdf as <-. apply linear_tri.
  - apply start_gen; [|..|discriminate|apply collect_tri].
    + intros c _. cbn. apply andb_false_r.
    + intros df Hdf. injection Hdf as <-. apply radial_tri.
Qed.
Lemma start_stop_in attrs d cu j n : (calm = true -> harmless E "stop" attrs) ->
  tri (sd d true cu j n) (stepToken fuel (TStart "stop" attrs)) (fun _ => sd d true cu j (S n)) W.
Proof.
  intros Hh. cbn [stepToken]. eapply tri_bind; [apply (push_tri "stop"), Hh|]. intros [].
  apply start_gen; [|..|discriminate|apply collect_tri].
  - intros c (_ & -> & _). cbn. apply andb_false_r.
  - intros df Hdf. injection Hdf as <-. apply stop_tri, Hh.
Qed.
Lemma start_in name attrs cu j n : is_gradient name = false -> name <> "defs"%string ->
  (lim = true -> name = "use"%string -> forall x, text_attr "href" "" attrs = String "#" x -> rank x < rank (group_of cu attrs)) ->
  (calm = true -> harmless E name attrs /\ name <> "endg"%string /\ (j = 0 \/ text_attr "id" "" attrs = EmptyString)) ->
  tri (sd true false cu j n) (stepToken fuel (TStart name attrs))
    (fun _ => sd true false (group_of cu attrs) (if String.eqb name "g" then S j else j) (S n)) W.
Proof.
  intros Hg Hd Hu Hh. cbn [stepToken]. eapply tri_bind; [apply (push_tri name); intros Hc; apply (Hh Hc)|]. intros [].
  intros c (H1 & H2 & H3 & H4 & H5). unfold readStartElement, bind, gets. cbv zeta.
  unfold is_gradient in Hg. apply orb_false_iff in Hg as [G1 G2]. rewrite G1, G2, H1, H2. cbn [orb negb andb]. rewrite attrID_text.
  apply String.eqb_neq in G1, G2.
  assert (Hok : okdef (group_of cu attrs) (mkDef (text_attr "id" "" attrs) name attrs)).
  { split; [exact G1|]. split; [exact G2|]. split; [exact Hd|]. split; [exact Hu|]. intros Hc. apply (Hh Hc). }
  destruct H4 as (K1 & K2 & K3). unfold group_of in *.
  destruct (String.eqb_spec (text_attr "id" "" attrs) "") as [Hid|Hid]; cbn [negb].
  - unfold ret, addDef, modify. cbn. split; [exact H1|]. split; [exact H2|]. split; [exact H3|]. split; [|exact H5]. cbn. split.
    + destruct (c_curDef c); cbn; [|exact K1]. congruence.
    + split; [apply Forall_app; split; [exact K2|constructor; [exact Hok|constructor]]|].
      intros Hc. destruct (K3 Hc) as (m & Hm & Hj). rewrite level_app, Hm. cbn [level d_tag]. destruct (Hh Hc) as (_ & Hn & _). apply String.eqb_neq in Hn. rewrite Hn.
      destruct (String.eqb name "g"); eexists; split; try reflexivity; lia.
  - assert (Hnew : cur (text_attr "id" "" attrs) (if String.eqb name "g" then S j else j) [mkDef (text_attr "id" "" attrs) name attrs]).
    { split; [reflexivity|]. split; [constructor; [exact Hok|constructor]|]. intros Hc. destruct (Hh Hc) as (_ & Hn & [-> |Hx]); [|congruence].
      cbn [level d_tag]. apply String.eqb_neq in Hn. rewrite Hn. destruct (String.eqb name "g"); eexists; split; try reflexivity; lia. }
    unfold flushDefs, addDef, modify. destruct (c_curDef c) as [|h l] eqn:Hcd; cbn.
    + rewrite Hcd. split; [exact H1|]. split; [exact H2|]. split; [exact H3|]. split; [exact Hnew|exact H5].
    + split; [exact H1|]. split; [exact H2|]. split; [|split; [exact Hnew|exact H5]].
      intros id ds. cbn [c_svg c_set_svg c_set_curDef sv_defs sv_set_defs]. rewrite mget_put. destruct (String.eqb_spec id (d_id h)) as [->|N]; [|apply H3].
      intros Heq. injection Heq as <-. rewrite K1. split; [exact K2|]. intros Hc. destruct (K3 Hc) as (m & Hm & _). rewrite Hm. discriminate.
Qed.

(** ** End elements and character data *)

Lemma end_plain name d g cu j n : is_gradient name = false -> name <> "defs"%string -> (d = true -> name <> "g"%string) ->
  tri (sd d g cu j (S n)) (stepToken fuel (TEnd name)) (fun _ => sd d g cu j n) W.
Proof.
  intros Hg Hd Hgn. cbn [stepToken]. rewrite endElement_rest. eapply tri_bind; [apply pop_tri|]. intros [].
  intros c Hc. unfold endRest. unfold is_gradient in Hg. apply orb_false_iff in Hg as [G1 G2]. rewrite G1, G2. apply String.eqb_neq in Hd. rewrite Hd. cbn [orb].
  destruct (String.eqb_spec name "g") as [->|N1].
  { unfold bind, gets. destruct Hc as (H1 & H2). rewrite H1. destruct d; [destruct (Hgn eq_refl eq_refl)|]. exact (conj H1 H2). }
  destruct (String.eqb name "mask").
  { unfold bind, gets, onSvg, modify, ret. destruct (c_mask c); eapply same_sd; try exact Hc; (constructor; auto). }
  destruct (String.eqb name "title").
  { unfold modify. eapply same_sd; [|exact Hc]. constructor; auto. intros [K1 K2]. split; [discriminate|exact K2]. }
  destruct (String.eqb name "desc").
  { unfold modify. eapply same_sd; [|exact Hc]. constructor; auto. intros [K1 K2]. split; [exact K1|discriminate]. }
  exact Hc.
Qed.
Lemma end_g_in g cu j n : tri (sd true g cu (S j) (S n)) (stepToken fuel (TEnd "g")) (fun _ => sd true g cu j n) W.
Proof.
  cbn [stepToken]. rewrite endElement_rest. eapply tri_bind; [apply pop_tri|]. intros [].
  intros c (H1 & H2 & H3 & (K1 & K2 & K3) & H5). unfold endRest, bind, gets. cbn [String.eqb Ascii.eqb Bool.eqb]. rewrite H1. unfold addDef, modify.
  split; [exact H1|]. split; [exact H2|]. split; [exact H3|]. split; [|exact H5]. cbn. split.
  - destruct (c_curDef c); cbn; [congruence|exact K1].
  - split.
    + apply Forall_app. split; [exact K2|]. constructor; [|constructor]. repeat split; try discriminate; intros; contradiction.
    + intros Hc. destruct (K3 Hc) as (m & Hm & Hj). rewrite level_app, Hm. cbn. destruct m; [lia|]. exists m. split; [reflexivity|lia].
Qed.
Lemma end_defs_tri g cu j n : tri (sd true g cu j (S n)) (stepToken fuel (TEnd "defs")) (fun _ => sd false g "" 0 n) W.
Proof.
  cbn [stepToken]. rewrite endElement_rest. eapply tri_bind; [apply pop_tri|]. intros [].
  intros c (H1 & H2 & H3 & (K1 & K2 & K3) & H5). unfold endRest, bind, flushDefs, modify. cbn [String.eqb Ascii.eqb Bool.eqb].
  destruct (c_curDef c) as [|h l] eqn:Hcd; cbn; (split; [reflexivity|]); (split; [exact H2|]).
  - split; [exact H3|]. split; [exact Hcd|exact H5].
  - split; [|split; [reflexivity|exact H5]].
    intros id ds. cbn [c_svg c_set_svg c_set_curDef c_set_inDefs sv_defs sv_set_defs]. rewrite mget_put. destruct (String.eqb_spec id (d_id h)) as [->|N]; [|apply H3].
    intros Heq. injection Heq as <-. rewrite K1. split; [exact K2|]. intros Hc. destruct (K3 Hc) as (m & Hm & _). rewrite Hm. discriminate.
Qed.
Lemma end_gradient_tri name d g cu j n : is_gradient name = true ->
  tri (sd d g cu j (S n)) (stepToken fuel (TEnd name)) (fun _ => sd d false cu j n) W.
Proof.
  intros Hg. cbn [stepToken]. rewrite endElement_rest. eapply tri_bind; [apply pop_tri|]. intros [].
  intros c (H1 & H2 & H3 & H4 & H5).
  assert (Hr : endRest name c = (c_set_inGrad false c, Ret tt)).
  { unfold is_gradient in Hg. apply orb_true_iff in Hg as [Hg|Hg]; apply String.eqb_eq in Hg; subst name; reflexivity. }
  rewrite Hr. split; [exact H1|]. split; [reflexivity|]. split; [exact H3|]. split; [exact H4|]. intros Hc. destruct (H5 Hc) as (A1 & A2 & [A3 A4]).
  split; [exact A1|]. split; [exact A2|]. split; [discriminate|exact A4].
Qed.
Lemma appendLast_total l s : l <> [] -> exists l', appendLast l s = Ret l' /\ l' <> [].
Proof.
  unfold appendLast. intros H. destruct (rev l) as [|x r] eqn:Er.
  - destruct H. rewrite <- (rev_involutive l), Er. reflexivity.
  - eexists. split; [reflexivity|]. intros H1. now apply (app_cons_not_nil (rev r) [] _ (eq_sym H1)).
Qed.
Lemma appendLast_nf l s : appendLast l s <> NoFuel.
Proof. unfold appendLast. destruct (rev l); discriminate. Qed.
Lemma appendLast_noerr l s e : appendLast l s <> Err e.
Proof. unfold appendLast. destruct (rev l); discriminate. Qed.
Lemma appendLast_ne l s l' : appendLast l s = Ret l' -> l' <> [].
Proof. unfold appendLast. destruct (rev l); intros H; inversion H. intros H2. now apply (app_cons_not_nil _ [] _ (eq_sym H2)). Qed.
Lemma chars_any s d g cu j n : tri (sd d g cu j n) (stepToken fuel (TChar s)) (fun _ => sd d g cu j n) W.
Proof.
  cbn [stepToken]. intros c Hc. unfold charData, bind, gets.
  assert (Hno : calm = true -> notes_ok c). { intros H. destruct Hc as (_ & _ & _ & _ & H5). apply (H5 H). }
  assert (Hst : calm = true -> c_stack c <> []) by (intros; eapply sd_stack; eauto).
  unfold lift, onSvg, modify, ret.
  destruct (c_inTitle c) eqn:Ht.
  - destruct (appendLast (sv_titles (c_svg c)) s) as [l|e| |] eqn:Hl; [|destruct (appendLast_noerr _ _ _ Hl)| |destruct (appendLast_nf _ _ Hl)].
    + assert (Hc1 : sd d g cu j n (c_set_svg (sv_set_titles l (c_svg c)) c)).
      { eapply same_sd; [|exact Hc]. constructor; auto. intros [K1 K2]. split; [intros _; exact (appendLast_ne _ _ _ Hl)|exact K2]. }
      destruct (c_inDesc c) eqn:Hd; [|exact Hc1].
      destruct (appendLast (sv_descs (c_svg c)) s) as [l2|e| |] eqn:Hl2; [|destruct (appendLast_noerr _ _ _ Hl2)| |destruct (appendLast_nf _ _ Hl2)].
      * eapply same_sd; [|exact Hc1]. constructor; auto. intros [K1 K2]. split; [exact K1|intros _; exact (appendLast_ne _ _ _ Hl2)].
      * split; [discriminate|]. intros H. destruct (Hno H) as [_ K]. destruct (appendLast_total _ s (K Hd)) as (l3 & H3 & _). congruence.
    + split; [discriminate|]. intros H. destruct (Hno H) as [K _]. destruct (appendLast_total _ s (K Ht)) as (l3 & H3 & _). congruence.
  - destruct (c_inDesc c) eqn:Hd; [|exact Hc].
    destruct (appendLast (sv_descs (c_svg c)) s) as [l2|e| |] eqn:Hl2; [|destruct (appendLast_noerr _ _ _ Hl2)| |destruct (appendLast_nf _ _ Hl2)].
    + eapply same_sd; [|exact Hc]. constructor; auto. intros [K1 K2]. split; [exact K1|intros _; exact (appendLast_ne _ _ _ Hl2)].
    + split; [discriminate|]. intros H. destruct (Hno H) as [_ K]. destruct (appendLast_total _ s (K Hd)) as (l3 & H3 & _). congruence.
Qed.

(** ** Trees *)
Notation run ts := (mapM (stepToken (E := E) fuel) ts).
Lemma one_token t (P Q : cursor -> Prop) : tri P (stepToken fuel t) (fun _ => Q) W -> tri P (run [t]) (fun _ => Q) W.
Proof. intros H. cbn [mapM]. eapply tri_bind; [exact H|]. intros []. apply tri_ret. auto. Qed.
Lemma misc_any (P : cursor -> Prop) : tri P (run [TOther]) (fun _ => P) W.
Proof. apply one_token. apply tri_ret. auto. Qed.
Lemma nodes_inv (P : cursor -> Prop) ns : (forall m, List.In m ns -> tri P (run (tokens m)) (fun _ => P) W) -> tri P (run (flat_map tokens ns)) (fun _ => P) W.
Proof.
  induction ns as [|m ns IH]; intros H; [apply tri_ret; auto|]. intros c Hc. cbn [flat_map]. rewrite mapM_app. revert c Hc.
  apply (tri_bind P _ _ (fun _ => P)); [apply H; now left|]. intros []. apply IH. intros. apply H. now right.
Qed.
Lemma stops_any d cu j n kids : stops_only kids = true -> (calm = true -> forall name attrs, List.In (name, attrs) (flat_map elements kids) -> harmless E name attrs) ->
  tri (sd d true cu j n) (run (flat_map tokens kids)) (fun _ => sd d true cu j n) W.
Proof.
  intros Hs Hh. apply nodes_inv. intros m Hm. unfold stops_only in Hs. rewrite forallb_forall in Hs. specialize (Hs m Hm).
  destruct m as [name attrs ks|s|]; [|apply one_token, chars_any|apply misc_any].
  apply andb_true_iff in Hs as [H1 H2]. apply String.eqb_eq in H1. subst name.
  eapply elem_tri; [apply start_stop_in| |apply end_plain; [reflexivity|discriminate|intros _; discriminate]].
  - intros Hc. apply (Hh Hc). apply in_flat_map. exists (Elem "stop" attrs ks). split; [exact Hm|now left].
  - apply nodes_inv. intros m2 Hm2. unfold no_elements in H2. rewrite forallb_forall in H2. specialize (H2 m2 Hm2). destruct m2; [discriminate|apply one_token, chars_any|apply misc_any].
Qed.
Definition good_elems (ns : list node) : Prop := calm = true -> forall name attrs, List.In (name, attrs) (flat_map elements ns) -> harmless E name attrs.
Lemma good_kids name attrs kids : good_elems [Elem name attrs kids] -> good_elems kids /\ (calm = true -> harmless E name attrs).
Proof. intros H. split; intros Hc; [intros nm at_ Hin|]; apply (H Hc); cbn; rewrite app_nil_r; [now right|now left]. Qed.
Lemma good_app a b : good_elems (a ++ b) -> good_elems a /\ good_elems b.
Proof. intros H. split; intros Hc nm at_ Hin; apply (H Hc); rewrite flat_map_app; apply in_or_app; auto. Qed.
Lemma gradient_node name attrs kids d cu j n : is_gradient name = true -> stops_only kids = true -> good_elems [Elem name attrs kids] ->
  tri (sd d false cu j n) (run (tokens (Elem name attrs kids))) (fun _ => sd d false cu j n) W.
Proof.
  intros Hg Hs Hh. apply good_kids in Hh as [H1 H2].
  eapply elem_tri; [apply start_gradient_any; [exact Hg|exact H2]|apply stops_any; [exact Hs|exact H1]|apply end_gradient_tri, Hg].
Qed.
Definition in_ok (cu : string) (j : nat) (ns : list node) : Prop :=
  forallb (orderly true) ns = true
  /\ (lim = true -> descending rank (group_refs cu (flat_map starts ns)))
  /\ (calm = true -> forallb whole_groups ns = true /\ (j = 0 \/ forallb no_id ns = true))
  /\ good_elems ns.
Lemma in_ok_app cu j a b : in_ok cu j (a ++ b) -> in_ok cu j a /\ in_ok (last_group cu (flat_map starts a)) j b.
Proof.
  intros (H1 & H2 & H3 & H4). rewrite forallb_app, andb_true_iff in H1. apply good_app in H4 as [G1 G2].
  rewrite flat_map_app, group_refs_app in H2.
  split; (split; [tauto|]); (split; [intros Hl; specialize (H2 Hl); apply descending_app in H2; tauto|]); (split; [|assumption]);
   intros Hc; specialize (H3 Hc); rewrite !forallb_app, !andb_true_iff in H3; tauto.
Qed.
Lemma nodes_in_gen ns : Forall (fun m => forall cu j n, in_ok cu j [m] ->
    tri (sd true false cu j n) (run (tokens m)) (fun _ => sd true false (last_group cu (starts m)) j n) W) ns ->
  forall cu j n, in_ok cu j ns -> tri (sd true false cu j n) (run (flat_map tokens ns)) (fun _ => sd true false (last_group cu (flat_map starts ns)) j n) W.
Proof.
  induction 1 as [|m ns Hm Hns IH]; intros cu j n Hok; [apply tri_ret; auto|].
  apply (in_ok_app cu j [m] ns) in Hok as [O1 O2]. cbn [flat_map app] in O2. rewrite app_nil_r in O2.
  intros c Hc. cbn [flat_map]. rewrite mapM_app. revert c Hc. rewrite last_group_app.
  apply (tri_bind _ _ _ (fun _ => sd true false (last_group cu (starts m)) j n)); [apply Hm, O1|]. intros []. apply IH, O2.
Qed.
Theorem node_in m : forall cu j n, in_ok cu j [m] ->
  tri (sd true false cu j n) (run (tokens m)) (fun _ => sd true false (last_group cu (starts m)) j n) W.
Proof.
  induction m as [name attrs kids IH|s|] using node_ind'; intros cu j n Hok; [|apply one_token, chars_any|apply misc_any].
  destruct Hok as (H1 & H2 & H3 & H4). cbn [forallb orderly flat_map starts no_id whole_groups] in *. rewrite !app_nil_r in H2. rewrite andb_true_r in H1.
  destruct (is_gradient name) eqn:Hg; [apply gradient_node; assumption|]. cbn [orb] in *.
  apply good_kids in H4 as [G1 G2]. apply andb_true_iff in H1 as [H1 Hkids]. cbn [andb orb] in *. apply negb_true_iff, String.eqb_neq in H1.
  cbn [group_refs] in H2.
  assert (Hst : tri (sd true false cu j n) (stepToken fuel (TStart name attrs))
    (fun _ => sd true false (group_of cu attrs) (if String.eqb name "g" then S j else j) (S n)) W).
  { apply start_in; [exact Hg|exact H1|..].
    - intros Hl -> x Hx. apply (H2 Hl). cbn. left. now rewrite Hx.
    - intros Hc. split; [exact (G2 Hc)|]. destruct (H3 Hc) as [K1 K2]. rewrite !andb_true_r in *. apply andb_true_iff in K1 as [K1 _]. split.
      + apply negb_true_iff, String.eqb_neq in K1. exact K1.
      + destruct K2 as [K2|K2]; [now left|right]. rewrite !andb_true_iff in K2. apply String.eqb_eq. tauto. }
  eapply elem_tri; [exact Hst|apply (nodes_in_gen kids IH)|].
  - split; [exact Hkids|]. split; [intros Hl; specialize (H2 Hl); apply descending_app in H2; tauto|]. split; [|exact G1].
    intros Hc. destruct (H3 Hc) as [K1 K2]. rewrite !andb_true_r in *. apply andb_true_iff in K1 as [_ K1].
    destruct (String.eqb name "g").
    + split; [|now right]. revert K1. apply forallb_mono. intros a _. apply no_id_whole.
    + split; [exact K1|]. destruct K2 as [K2|K2]; [now left|right]. rewrite !andb_true_iff in K2. tauto.
  - change (last_group cu ((name, attrs) :: flat_map starts kids)) with (last_group (group_of cu attrs) (flat_map starts kids)).
    destruct (String.eqb_spec name "g") as [->|N]; [apply end_g_in|]. apply end_plain; [exact Hg|exact H1|auto].
Qed.
Lemma nodes_in ns cu j n : in_ok cu j ns -> tri (sd true false cu j n) (run (flat_map tokens ns)) (fun _ => sd true false (last_group cu (flat_map starts ns)) j n) W.
Proof. apply nodes_in_gen. apply Forall_forall. intros m _. apply node_in. Qed.

Definition out_ok (ns : list node) : Prop :=
  forallb (orderly false) ns = true
  /\ (lim = true -> descending rank (flat_map doc_refs ns))
  /\ (calm = true -> forallb whole_defs ns = true)
  /\ good_elems ns.
Lemma out_ok_in ns m : out_ok ns -> List.In m ns -> out_ok [m].
Proof.
  intros H Hin. apply in_split in Hin as (a & b & ->). destruct H as (H1 & H2 & H3 & H4).
  apply good_app in H4 as [_ H4]. apply (good_app [m]) in H4 as [H4 _].
  rewrite forallb_app in H1. cbn [forallb] in *. rewrite !andb_true_iff in H1. split; [cbn [forallb]; rewrite andb_true_r; tauto|]. split.
  - intros Hl. specialize (H2 Hl). rewrite flat_map_app in H2. cbn [flat_map] in *. rewrite app_nil_r. apply descending_app in H2 as [_ H2]. apply descending_app in H2. tauto.
  - split; [|exact H4]. intros Hc. specialize (H3 Hc). rewrite forallb_app in H3. cbn [forallb] in *. rewrite !andb_true_iff in H3. rewrite andb_true_r. tauto.
Qed.
Theorem node_out m : forall n, out_ok [m] -> tri (sd false false "" 0 n) (run (tokens m)) (fun _ => sd false false "" 0 n) W.
Proof.
  induction m as [name attrs kids IH|s|] using node_ind'; intros n Hok; [|apply one_token, chars_any|apply misc_any].
  destruct Hok as (H1 & H2 & H3 & H4). cbn [forallb orderly flat_map doc_refs whole_defs] in *. rewrite !app_nil_r in H2. rewrite andb_true_r in H1.
  destruct (is_gradient name) eqn:Hg; [apply gradient_node; assumption|]. cbn [orb] in *. cbn [andb orb negb] in H1.
  apply good_kids in H4 as [G1 G2].
  destruct (String.eqb_spec name "defs") as [->|N].
  - eapply elem_tri; [apply start_defs_out, G2|apply (nodes_in kids "" 0)|apply end_defs_tri].
    split; [exact H1|]. split; [exact H2|]. split; [|exact G1]. intros Hc. specialize (H3 Hc). rewrite andb_true_r in H3. split; [exact H3|now left].
  - eapply elem_tri; [apply start_out; assumption|apply nodes_inv|apply end_plain; [exact Hg|exact N|discriminate]].
    intros m Hm. rewrite Forall_forall in IH. apply IH; [exact Hm|]. apply (out_ok_in kids); [|exact Hm].
    split; [exact H1|]. split; [exact H2|]. split; [|exact G1]. intros Hc. specialize (H3 Hc). now rewrite andb_true_r in H3.
Qed.
Theorem nodes_out ns n : out_ok ns -> tri (sd false false "" 0 n) (run (flat_map tokens ns)) (fun _ => sd false false "" 0 n) W.
Proof. intros H. apply nodes_inv. intros m Hm. apply node_out, (out_ok_in ns); assumption. Qed.
Lemma start_state mode : sd false false "" 0 0 (cursor0 (E := E) mode).
Proof.
  split; [reflexivity|]. split; [reflexivity|]. split; [intros id ds H; discriminate H|]. split; [reflexivity|]. intros _. split; [cbn; lia|].
  split; [split; discriminate|]. split; [discriminate|]. intros id p Hp. discriminate Hp.
Qed.
End End.

(** * ProofsOrder2: the order of the attributes of documents, paths and gradients *)
From Verif Require Export ProofsOrder.
Local Open Scope go_scope.

Section Elements.
Context {E : Env}.
Notation cursor := (cursor E).
Notation style := (style E).
Notation svg := (svg E).
Notation C := (@C E).
Ltac clash := match goal with
  | Hp : apart ?a ?b, H1 : is ?a ?n = true, H2 : is ?b ?n = true |- _ => destruct (apart_names _ _ _ Hp H1 H2)
  | Hp : apart ?a ?b, H1 : is ?a "r" = true, H2 : is ?b "rx" = true |- _ => destruct (apart_r1 _ _ _ Hp H1 (or_introl eq_refl) H2)
  | Hp : apart ?a ?b, H1 : is ?a "r" = true, H2 : is ?b "ry" = true |- _ => destruct (apart_r1 _ _ _ Hp H1 (or_intror eq_refl) H2)
  | Hp : apart ?a ?b, H1 : is ?b "r" = true, H2 : is ?a "rx" = true |- _ => destruct (apart_r2 _ _ _ Hp H1 (or_introl eq_refl) H2)
  | Hp : apart ?a ?b, H1 : is ?b "r" = true, H2 : is ?a "ry" = true |- _ => destruct (apart_r2 _ _ _ Hp H1 (or_intror eq_refl) H2)
  end.
Ltac open H := unfold bind, cParseUnit, lift, ret, raise in H; cbn beta iota in H.
Ltac branch H := repeat match type of H with
  | (if is ?a ?n then _ else _) _ = _ => let Hn := fresh "N" in destruct (is a n) eqn:Hn
  end.
Ltac crack H := repeat match type of H with
  | context [match ?o with Ret _ => _ | Err _ => _ | Panic => _ | NoFuel => _ end] => let Ho := fresh "O" in destruct o eqn:Ho; try discriminate H
  | context [if ?b then _ else _] => let Ho := fresh "O" in destruct b eqn:Ho; try discriminate H
  end.
Ltac known := repeat match goal with
  | Hn : is ?a ?n = _ |- context [is ?a ?n] => rewrite Hn
  | Ho : ?o = _ |- context [match ?o with Ret _ => _ | Err _ => _ | Panic => _ | NoFuel => _ end] => rewrite Ho
  | Ho : ?b = _ |- context [if ?b then _ else _] => rewrite Ho
  end.
Ltac fin := unfold bind, cParseUnit, lift, ret, raise; cbn beta iota; known; reflexivity.
Tactic Notation "swap_units" reference(f) := intros Hp x s t y u z _ H1 H2; repeat match goal with l : prod _ _ |- _ => destruct l end; unfold f in *;
  branch H1; open H1; crack H1; injection H1 as; subst; branch H2; try clash; open H2; crack H2; injection H2 as; subst;
  eexists; eexists; (split; [known; fin|known; fin]).
Lemma nth_set {A} (l : list A) : forall p x y, nth_error l p = Some y -> nth_error (set_nth l p x) p = Some x.
Proof. induction l as [|h l IH]; intros [|p] x y H; try discriminate; [reflexivity|]. exact (IH p x y H). Qed.
Lemma set_set {A} (l : list A) : forall p x y, set_nth (set_nth l p x) p y = set_nth l p y.
Proof. induction l as [|h l IH]; intros [|p] x y; try reflexivity. cbn. rewrite IH. reflexivity. Qed.
(** viewBox, points and d write the points; an element reads only one of them *)
Definition box_of (a : attr) (c : cursor) : option cursor :=
  match getPoints (E := E) (a_val a) (c_pc c) with
  | (pc', Ret tt) => match pc_points pc' with [x; y; w; h] => Some (c_set_svg (sv_set_viewBox (mkB x y w h) (c_svg c)) (c_set_pc pc' c)) | _ => None end
  | _ => None
  end.
Lemma svg_box l a c : is a "viewBox" = true -> forall t y, svgAttr (E := E) l a c = (t, Ret y) <-> box_of a c = Some t /\ y = l.
Proof.
  intros Ha t y. unfold svgAttr, box_of. rewrite Ha. destruct l as [w h]. unfold bind, attempt, cGetPoints, liftP, cPoints, gets, onSvg, modify, raise, ret.
  destruct (getPoints (a_val a) (c_pc c)) as [pc' [[]|e| |]]; cbn; try (split; [discriminate|intros [H _]; discriminate H]).
  - destruct (pc_points pc') as [|x1 [|x2 [|x3 [|x4 [|x5 r]]]]]; try (split; [discriminate|intros [H _]; discriminate H]).
    split; [intros H; injection H as <- <-; auto|intros [H ->]; injection H as <-; reflexivity].
  - destruct (pc_points pc') as [|x1 [|x2 [|x3 [|x4 [|x5 r]]]]]; split; try discriminate; intros [H _]; discriminate H.
Qed.
Lemma svg_swaps a b : apart a b -> swaps (svgAttr (E := E)) always a b.
Proof.
  intros Hp x s t y u z _ H1 H2.
  destruct (is a "viewBox") eqn:Na, (is b "viewBox") eqn:Nb; [clash| | |].
  - apply (svg_box _ _ _ Na) in H1 as [H1 ->]. exists (match svgAttr x b s with (t', _) => t' end), z.
    assert (K : svgAttr x b s = (match svgAttr x b s with (t', _) => t' end, Ret z) /\ box_of a (match svgAttr x b s with (t', _) => t' end) = Some u).
    { unfold box_of in H1. destruct (getPoints (a_val a) (c_pc s)) as [pc' [[]|e| |]] eqn:Hg; try discriminate.
      destruct (pc_points pc') as [|x1 [|x2 [|x3 [|x4 [|x5 r]]]]] eqn:Hps; try discriminate. injection H1 as <-. destruct x as [w h].
      unfold svgAttr in *. rewrite Nb in *. destruct (is b "width"); [|destruct (is b "height")]; unfold bind, onSvg, modify, lift, ret in *; cbn beta iota in H2 |- *.
      all: try (destruct (parseBasicFloat (a_val b)); try discriminate).
      all: injection H2 as <- <-; split; [reflexivity|]; unfold box_of.
      all: match goal with |- match getPoints _ (c_pc ?s') with _ => _ end = _ => change (c_pc s') with (c_pc s) end; rewrite Hg; cbn beta iota; rewrite Hps; reflexivity. }
    destruct K as [K1 K2]. split; [exact K1|]. apply (svg_box _ _ _ Na). auto.
  - apply (svg_box _ _ _ Nb) in H2 as [H2 ->]. unfold box_of in H2. destruct x as [w h].
    destruct (getPoints (a_val b) (c_pc t)) as [pc' [[]|e| |]] eqn:Hg; try discriminate.
    destruct (pc_points pc') as [|x1 [|x2 [|x3 [|x4 [|x5 r]]]]] eqn:Hps; try discriminate. injection H2 as <-.
    assert (K : c_pc t = c_pc s). { unfold svgAttr in H1. rewrite Na in H1. destruct (is a "width"); [|destruct (is a "height")]; unfold bind, onSvg, modify, lift, ret in H1; cbn in H1; [destruct (parseBasicFloat (a_val a)); try discriminate..|]; injection H1 as <- <-; reflexivity. }
    rewrite K in Hg. exists (c_set_svg (sv_set_viewBox (mkB x1 x2 x3 x4) (c_svg s)) (c_set_pc pc' s)), (w, h). split.
    + apply (svg_box _ _ _ Nb). unfold box_of. rewrite Hg, Hps. auto.
    + unfold svgAttr in *. rewrite Na in *. destruct (is a "width"); [|destruct (is a "height")]; unfold bind, onSvg, modify, lift, ret in *; cbn in H1 |- *; [destruct (parseBasicFloat (a_val a)); try discriminate..|]; injection H1 as <- <-; reflexivity.
  - destruct x as [w h]. unfold svgAttr in *. rewrite Na, Nb in *.
    branch H1; open H1; unfold onSvg, modify in H1; cbn beta iota in H1; crack H1; injection H1 as; subst;
    branch H2; try clash; open H2; unfold onSvg, modify in H2; cbn beta iota in H2; crack H2; injection H2 as; subst;
    eexists; eexists; (split; [known; unfold onSvg, modify; fin|known; unfold onSvg, modify; fin]).
Qed.
Lemma poly_swaps a b : apart a b -> swaps (polyAttr (E := E)) always a b.
Proof.
  intros Hp [] s t [] u [] _ H1 H2. unfold polyAttr in *. destruct (is a "points") eqn:Na.
  - destruct (is b "points") eqn:Nb; [clash|]. injection H2 as <-. exists s, tt. auto.
  - injection H1 as <-. exists u, tt. destruct (is b "points"); auto.
Qed.
Definition pathAttr (x : unit) (a : attr) : C unit := if is a "d" then liftP (compilePath (a_val a)) else ret tt.
Lemma path_swaps a b : apart a b -> swaps pathAttr always a b.
Proof.
  intros Hp [] s t [] u [] _ H1 H2. unfold pathAttr in *. destruct (is a "d") eqn:Na.
  - destruct (is b "d") eqn:Nb; [clash|]. injection H2 as <-. exists s, tt. auto.
  - injection H1 as <-. exists u, tt. destruct (is b "d"); auto.
Qed.
Lemma pathF_fold l c : pathF (E := E) l c = foldM pathAttr tt l c.
Proof.
  unfold pathF. revert c. induction l as [|a l IH]; intros c; [reflexivity|]. cbn [mapM foldM]. unfold bind.
  replace (pathAttr tt a c) with ((if is a "d" then liftP (compilePath (a_val a)) else ret tt) c) by reflexivity.
  destruct (is a "d"); [|apply IH]. destruct (liftP (compilePath (a_val a)) c) as [c' [[]|e| |]]; try reflexivity. apply IH.
Qed.
(** *** Gradients *)
Inductive gname := GMatrix | GUnits | GSpread.
Definition gtext (n : gname) : string := match n with GMatrix => "gradientTransform" | GUnits => "gradientUnits" | GSpread => "spreadMethod" end.
Inductive gset := SetMatrix (m : matrix E) | SetUnits (x : gradUnits) | SetSpread (x : spreadMethod).
Definition gname_of (s : gset) : gname := match s with SetMatrix _ => GMatrix | SetUnits _ => GUnits | SetSpread _ => GSpread end.
Definition gapply (s : gset) : gradient E -> gradient E :=
  match s with SetMatrix m => g_set_matrix m | SetUnits x => g_set_units x | SetSpread x => g_set_spread x end.
Definition doG (e : effect (E := E)) (s : option gset) (c : cursor) : cursor * outcome unit :=
  match s with Some s => onGrad (gapply s) (act e c) | None => (act e c, Ret tt) end.
Lemma grad_does a c t : readGradAttr (E := E) a c = (t, Ret tt) -> exists e s, may "transform" e /\ (e <> NoEffect -> is a "gradientTransform" = true)
  /\ (forall x, s = Some x -> is a (gtext (gname_of x)) = true) /\ forall c', c_stack c' = c_stack c -> readGradAttr a c' = doG e s c'.
Proof.
  unfold readGradAttr, is. intros H. cbv zeta in *. destruct (String.eqb (a_name a) "gradientTransform") eqn:N1.
  { apply bindC in H as (c2 & m & H1 & H2). destruct (transform_agree _ _ _ _ H1) as (e & He & K). exists e, (Some (SetMatrix m)). split; [exact He|]. split; [auto|].
    split; [intros x Hx; injection Hx as <-; exact N1|]. intros c' Hc. unfold bind. rewrite (K c' Hc). reflexivity. }
  assert (G : forall o, (forall x, o = Some x -> is a (gtext (gname_of x)) = true) -> (forall c', (match o with Some s => onGrad (gapply s) c' | None => (c', Ret tt) end) = readGradAttr a c') ->
    exists e s, may "transform" e /\ (e <> NoEffect -> false = true) /\ (forall x, s = Some x -> is a (gtext (gname_of x)) = true)
      /\ forall c', c_stack c' = c_stack c -> readGradAttr a c' = doG e s c').
  { intros o Ho Hr. exists NoEffect, o. split; [exact I|]. split; [intros K; contradiction|]. split; [exact Ho|]. intros c' _. symmetry. apply Hr. }
  unfold readGradAttr in G. cbv zeta in G. rewrite N1 in G. unfold is in G.
  destruct (String.eqb (a_name a) "gradientUnits") eqn:N2.
  { destruct (String.eqb (trimSpace (a_val a)) "userSpaceOnUse"); [apply (G (Some (SetUnits UserSpaceOnUse))); [intros x Hx; injection Hx as <-; exact N2|reflexivity]|].
    destruct (String.eqb (trimSpace (a_val a)) "objectBoundingBox"); [apply (G (Some (SetUnits ObjectBoundingBox))); [intros x Hx; injection Hx as <-; exact N2|reflexivity]|].
    apply (G None); [discriminate|reflexivity]. }
  destruct (String.eqb (a_name a) "spreadMethod") eqn:N3.
  { destruct (String.eqb (trimSpace (a_val a)) "pad"); [apply (G (Some (SetSpread PadSpread))); [intros x Hx; injection Hx as <-; exact N3|reflexivity]|].
    destruct (String.eqb (trimSpace (a_val a)) "reflect"); [apply (G (Some (SetSpread ReflectSpread))); [intros x Hx; injection Hx as <-; exact N3|reflexivity]|].
    destruct (String.eqb (trimSpace (a_val a)) "repeat"); [apply (G (Some (SetSpread RepeatSpread))); [intros x Hx; injection Hx as <-; exact N3|reflexivity]|].
    apply (G None); [discriminate|reflexivity]. }
  apply (G None); [discriminate|reflexivity].
Qed.
Lemma onGrad_ok f (c t : cursor) : onGrad f c = (t, Ret tt) <-> exists p g, c_grad c = Some p /\ nth_error (c_gheap c) p = Some g /\ t = c_set_gheap (set_nth (c_gheap c) p (f g)) c.
Proof.
  unfold onGrad. destruct (c_grad c) as [p|]; [|split; [discriminate|intros (p & g & H & _); discriminate]].
  destruct (nth_error (c_gheap c) p) as [g|] eqn:Hn; [|split; [discriminate|intros (p' & g & H & K & _); injection H as <-; congruence]].
  split; [intros H; injection H as <-; eauto|intros (p' & g' & H & K & ->); injection H as <-; rewrite Hn in K; injection K as <-; reflexivity].
Qed.
Lemma doG_stack e s c t : doG e s c = (t, Ret tt) -> c_stack t = c_stack c.
Proof.
  unfold doG. destruct s as [s|]; intros H.
  - apply onGrad_ok in H as (p & g & _ & _ & ->). destruct e; reflexivity.
  - injection H as <-. destruct e; reflexivity.
Qed.
Lemma doG_comm e s e' s' c t u : may "transform" e -> may "transform" e' -> (e <> NoEffect -> e' <> NoEffect -> False) ->
  (forall x x', s = Some x -> s' = Some x' -> gname_of x <> gname_of x') -> doG e s c = (t, Ret tt) -> doG e' s' t = (u, Ret tt) ->
  exists t', doG e' s' c = (t', Ret tt) /\ doG e s t' = (u, Ret tt).
Proof.
  intros He He' Hee Hss H1 H2.
  assert (Hact : forall h c, act e (c_set_gheap h c) = c_set_gheap h (act e c)) by (destruct e; reflexivity).
  assert (Hact' : forall h c, act e' (c_set_gheap h c) = c_set_gheap h (act e' c)) by (destruct e'; reflexivity).
  assert (Hc : forall c, act e (act e' c) = act e' (act e c)) by (clear -He He' Hee; intros c; destruct e, e'; cbn in He, He'; try discriminate; try reflexivity; destruct (Hee ltac:(discriminate) ltac:(discriminate))).
  assert (Hg : forall c, c_grad (act e c) = c_grad c /\ c_gheap (act e c) = c_gheap c) by (destruct e; split; reflexivity).
  assert (Hg' : forall c, c_grad (act e' c) = c_grad c /\ c_gheap (act e' c) = c_gheap c) by (destruct e'; split; reflexivity).
  unfold doG in *. destruct s as [s|], s' as [s'|].
  - apply onGrad_ok in H1 as (p & g & P1 & P2 & ->). apply onGrad_ok in H2 as (p' & g' & P3 & P4 & ->). rewrite Hact' in *. cbn in P3, P4. rewrite (proj1 (Hg' _)), P1 in P3. injection P3 as <-.
    rewrite (nth_set _ _ _ _ P2) in P4. injection P4 as <-. rewrite (proj1 (Hg _)) in P1. rewrite (proj2 (Hg _)) in P2.
    exists (c_set_gheap (set_nth (c_gheap c) p (gapply s' g)) (act e' c)). split.
    + apply onGrad_ok. exists p, g. rewrite (proj1 (Hg' _)), (proj2 (Hg' _)). auto.
    + apply onGrad_ok. exists p, (gapply s' g). rewrite Hact. cbn. rewrite (proj1 (Hg _)), (proj1 (Hg' _)), (nth_set _ _ _ _ P2). repeat split; auto.
      replace (gapply s (gapply s' g)) with (gapply s' (gapply s g)) by (specialize (Hss s s' eq_refl eq_refl); destruct s, s'; try reflexivity; destruct Hss; reflexivity).
      rewrite (Hc c), set_set, ?(proj2 (Hg' _)), ?(proj2 (Hg _)). cbn [c_gheap c_set_gheap]. rewrite ?set_set. reflexivity.
  - apply onGrad_ok in H1 as (p & g & P1 & P2 & ->). injection H2 as <-. exists (act e' c). split; [reflexivity|]. apply onGrad_ok. exists p, g. rewrite (proj1 (Hg _)), (proj2 (Hg _)), (proj1 (Hg' _)), (proj2 (Hg' _)).
    rewrite (proj1 (Hg _)) in P1. rewrite (proj2 (Hg _)) in P2. repeat split; auto. rewrite Hact', Hc, (proj2 (Hg _)). reflexivity.
  - injection H1 as <-. apply onGrad_ok in H2 as (p & g & P1 & P2 & ->). rewrite (proj1 (Hg' _)), (proj1 (Hg _)) in P1. rewrite (proj2 (Hg' _)), (proj2 (Hg _)) in P2.
    exists (c_set_gheap (set_nth (c_gheap c) p (gapply s' g)) (act e' c)). split.
    + apply onGrad_ok. exists p, g. rewrite (proj1 (Hg' _)), (proj2 (Hg' _)). auto.
    + rewrite Hact, Hc, (proj2 (Hg' _)), (proj2 (Hg _)). reflexivity.
  - injection H1 as <-. injection H2 as <-. exists (act e' c). rewrite Hc. auto.
Qed.
(** the action of an attribute of a gradient: register the id, or change the gradient, or nothing *)
Definition gradStep (dirs : list string) (a : attr) : C unit :=
  if is a "id" then registerGrad (a_val a) else if existsb (is a) dirs then ret tt else readGradAttr a.
Lemma gradStep_comm dirs a b c t u : apart a b -> gradStep dirs a c = (t, Ret tt) -> gradStep dirs b t = (u, Ret tt) ->
  exists t', gradStep dirs b c = (t', Ret tt) /\ gradStep dirs a t' = (u, Ret tt).
Proof.
  intros Hp H1 H2. unfold gradStep in *.
  assert (Hreg : forall id x y, registerGrad (E := E) id x = (y, Ret tt) <-> exists p, c_grad x = Some p /\ y = c_set_svg (sv_set_grads (mput id p (sv_grads (c_svg x))) (c_svg x)) x).
  { intros id x y. unfold registerGrad. destruct (c_grad x) as [p|]; [|split; [discriminate|intros (p & H & _); discriminate]].
    split; [intros H; injection H as <-; eauto|intros (p' & H & ->); injection H as <-; reflexivity]. }
  destruct (is a "id") eqn:Na, (is b "id") eqn:Nb; [clash| | |].
  - apply Hreg in H1 as (p & P1 & ->). destruct (existsb (is b) dirs); [injection H2 as <-; exists c; split; [reflexivity|]; apply Hreg; eauto|].
    destruct (grad_does _ _ _ H2) as (e & s & He & _ & _ & K). rewrite K in H2 by reflexivity.
    assert (X : exists t', doG e s c = (t', Ret tt) /\ c_grad t' = c_grad c /\ u = c_set_svg (sv_set_grads (mput (a_val a) p (sv_grads (c_svg t'))) (c_svg t')) t').
    { unfold doG in *. destruct s as [s|].
      - apply onGrad_ok in H2 as (p' & g & P2 & P3 & ->). assert (X1 : c_grad (act e c) = Some p') by (destruct e; exact P2). assert (X2 : nth_error (c_gheap (act e c)) p' = Some g) by (destruct e; exact P3).
        eexists. split; [apply onGrad_ok; exists p', g; split; [exact X1|split; [exact X2|reflexivity]]|]. split; [destruct e; reflexivity|]. destruct e; reflexivity.
      - injection H2 as <-. eexists. split; [reflexivity|]. split; destruct e; reflexivity. }
    destruct X as (t' & X1 & X2 & X3). exists t'. rewrite K by reflexivity. split; [exact X1|]. apply Hreg. exists p. rewrite X2. auto.
  - apply Hreg in H2 as (p & P1 & ->). destruct (existsb (is a) dirs); [injection H1 as <-; eexists; split; [apply Hreg; eauto|reflexivity]|].
    destruct (grad_does _ _ _ H1) as (e & s & He & _ & _ & K). rewrite K in H1 by reflexivity.
    exists (c_set_svg (sv_set_grads (mput (a_val b) p (sv_grads (c_svg c))) (c_svg c)) c). split.
    + apply Hreg. exists p. split; [|reflexivity]. unfold doG in H1. destruct s as [s|]; [apply onGrad_ok in H1 as (p' & g & P2 & P3 & ->)|injection H1 as <-]; destruct e; exact P1.
    + rewrite K by reflexivity. unfold doG in *. destruct s as [s|].
      * apply onGrad_ok in H1 as (p' & g & P2 & P3 & ->). apply onGrad_ok. exists p', g. split; [destruct e; exact P2|]. split; [destruct e; exact P3|]. destruct e; reflexivity.
      * injection H1 as <-. destruct e; reflexivity.
  - destruct (existsb (is a) dirs); [injection H1 as <-; exists u; destruct (existsb (is b) dirs); auto|].
    destruct (existsb (is b) dirs); [injection H2 as <-; exists c; auto|].
    destruct (grad_does _ _ _ H1) as (e & s & He & Hea & Hsa & K). destruct (grad_does _ _ _ H2) as (e' & s' & He' & Heb & Hsb & K').
    rewrite K in H1 by reflexivity. rewrite K' in H2 by reflexivity. pose proof (doG_stack _ _ _ _ H1) as Hst.
    destruct (doG_comm e s e' s' c t u He He') as (t' & X1 & X2); auto.
    + intros P1 P2. exact (apart_names _ _ _ Hp (Hea P1) (Heb P2)).
    + intros x x' Hx Hx' Hn. apply (apart_names a b (gtext (gname_of x)) Hp); [apply Hsa, Hx|rewrite Hn; apply Hsb, Hx'].
    + exists t'. rewrite (K' c) by (symmetry; exact Hst). split; [exact X1|]. rewrite K; [exact X2|]. exact (doG_stack _ _ _ _ X1).
Qed.
Definition linUpd (l : string * string * string * string) (a : attr) : string * string * string * string :=
  let '(x1, y1, x2, y2) := l in
  if is a "id" then l else if is a "x1" then (a_val a, y1, x2, y2) else if is a "y1" then (x1, a_val a, x2, y2)
  else if is a "x2" then (x1, y1, a_val a, y2) else if is a "y2" then (x1, y1, x2, a_val a) else l.
Lemma lin_split l a c : linAttr (E := E) l a c = (gradStep ["x1"; "y1"; "x2"; "y2"]%string a ;; ret (linUpd l a)) c.
Proof.
  destruct l as [[[x1 y1] x2] y2]. unfold linAttr, gradStep, linUpd. cbn [existsb].
  destruct (is a "id"), (is a "x1"), (is a "y1"), (is a "x2"), (is a "y2"); reflexivity.
Qed.
Definition radUpd (l : string * string * option string * option string * string * string) (a : attr) : string * string * option string * option string * string * string :=
  let '(cx, cy, fx, fy, r, fr) := l in
  if is a "id" then l else if is a "cx" then (a_val a, cy, fx, fy, r, fr) else if is a "cy" then (cx, a_val a, fx, fy, r, fr)
  else if is a "fx" then (cx, cy, Some (a_val a), fy, r, fr) else if is a "fy" then (cx, cy, fx, Some (a_val a), r, fr)
  else if is a "r" then (cx, cy, fx, fy, a_val a, fr) else if is a "fr" then (cx, cy, fx, fy, r, a_val a) else l.
Lemma rad_split l a c : radAttr (E := E) l a c = (gradStep ["cx"; "cy"; "fx"; "fy"; "r"; "fr"]%string a ;; ret (radUpd l a)) c.
Proof.
  destruct l as [[[[[cx cy] fx] fy] r] fr]. unfold radAttr, gradStep, radUpd. cbn [existsb].
  destruct (is a "id"), (is a "cx"), (is a "cy"), (is a "fx"), (is a "fy"), (is a "r"), (is a "fr"); reflexivity.
Qed.
Lemma split_swaps {L} (f : L -> attr -> C L) dirs upd a b : apart a b -> (forall l a c, f l a c = (gradStep dirs a ;; ret (upd l a)) c) ->
  (forall l, upd (upd l a) b = upd (upd l b) a) -> swaps f always a b.
Proof.
  intros Hp Hf Hu x s t y u z _ H1 H2. rewrite Hf in H1, H2. apply bindC in H1 as (s1 & [] & H1 & R1). apply bindC in H2 as (s2 & [] & H2 & R2).
  injection R1 as <- <-. injection R2 as <- <-. destruct (gradStep_comm _ _ _ _ _ _ Hp H1 H2) as (t' & K1 & K2).
  exists t', (upd x b). rewrite !Hf. unfold bind. rewrite K1, K2, Hu. auto.
Qed.
Lemma lin_swaps a b : apart a b -> swaps (linAttr (E := E)) always a b.
Proof.
  intros Hp. apply (split_swaps _ _ linUpd a b Hp lin_split). intros [[[x1 y1] x2] y2]. unfold linUpd.
  destruct (is a "id") eqn:?, (is b "id") eqn:?; try clash; try reflexivity; destruct (is a "x1") eqn:?, (is b "x1") eqn:?; try clash; try reflexivity;
  destruct (is a "y1") eqn:?, (is b "y1") eqn:?; try clash; try reflexivity; destruct (is a "x2") eqn:?, (is b "x2") eqn:?; try clash; try reflexivity;
  destruct (is a "y2") eqn:?, (is b "y2") eqn:?; try clash; reflexivity.
Qed.
Lemma rad_swaps a b : apart a b -> swaps (radAttr (E := E)) always a b.
Proof.
  intros Hp. apply (split_swaps _ _ radUpd a b Hp rad_split). intros [[[[[cx cy] fx] fy] r] fr]. unfold radUpd.
  destruct (is a "id") eqn:?, (is b "id") eqn:?; try clash; try reflexivity; destruct (is a "cx") eqn:?, (is b "cx") eqn:?; try clash; try reflexivity;
  destruct (is a "cy") eqn:?, (is b "cy") eqn:?; try clash; try reflexivity; destruct (is a "fx") eqn:?, (is b "fx") eqn:?; try clash; try reflexivity;
  destruct (is a "fy") eqn:?, (is b "fy") eqn:?; try clash; try reflexivity; destruct (is a "r") eqn:?, (is b "r") eqn:?; try clash; try reflexivity;
  destruct (is a "fr") eqn:?, (is b "fr") eqn:?; try clash; reflexivity.
Qed.
End Elements.

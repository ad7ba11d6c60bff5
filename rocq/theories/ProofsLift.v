(** * ProofsLift: a shape is drawn the same way from every state *)
From Coq Require Import Lia.
From Verif Require Export SpecLift ProofsTree2 ProofsFrame ProofsPath4.
Local Open Scope go_scope.

Section L.
Context {E : Env}.
Notation cursor := (cursor E).

(** ** More recursion depth changes nothing *)
Lemma raise_more f : forall f' (a b v : F E), f <= f' -> raise_angle f a b = Ret v -> raise_angle f' a b = Ret v.
Proof.
  induction f as [|f IH]; intros f' a b v Hf H; cbn [raise_angle] in H.
  - destruct (fltb E a b) eqn:L; [discriminate|]. destruct f'; cbn [raise_angle]; rewrite L; exact H.
  - destruct f' as [|f']; [lia|]. cbn [raise_angle]. destruct (fltb E a b); [apply IH; [lia|exact H]|exact H].
Qed.
Lemma obind_ret {A B} (o : outcome A) (k : A -> outcome B) v : obind o k = Ret v -> exists a, o = Ret a /\ k a = Ret v.
Proof. destruct o; try discriminate. eauto. Qed.
Lemma gap_more f f' m a t l (p p' : path) : f <= f' -> roundGap (E := E) f m a t l p = Ret p' -> roundGap (E := E) f' m a t l p = Ret p'.
Proof.
  intros Hf H. unfold roundGap, addCircArc in *. apply obind_ret in H as (q & H & Hq). apply obind_ret in H as (th & H & Hth).
  rewrite (raise_more _ _ _ _ _ Hf H). cbn [obind] in *. injection Hth as <-. exact Hq.
Qed.
Lemma round_more f f' x0 y0 x1 y1 rx ry rot (p p' : path) : f <= f' ->
  addRoundRect (E := E) f x0 y0 x1 y1 rx ry rot p = Ret p' -> addRoundRect (E := E) f' x0 y0 x1 y1 rx ry rot p = Ret p'.
Proof.
  intros Hf. unfold addRoundRect. cbv zeta. destruct (_ || _); [auto|]. intros H.
  do 4 (apply obind_ret in H; destruct H as (? & G & H); rewrite (gap_more _ _ _ _ _ _ _ _ Hf G); cbn [obind]; clear G). exact H.
Qed.
Lemma more_fuel f f' name attrs (c c' : cursor) : List.In name shape_names -> f <= f' ->
  forall df, drawFuncs f name = Some df -> df attrs c = (c', Ret tt) -> exists df', drawFuncs f' name = Some df' /\ df' attrs c = (c', Ret tt).
Proof.
  intros Hn Hf df Hd H. cbn in Hn. repeat (destruct Hn as [<-|Hn]; [injection Hd as <-|]); try destruct Hn;
    try (eexists; split; [reflexivity|exact H]).
  exists (rectF f'). split; [reflexivity|]. unfold rectF, bind in *.
  destruct (foldM rectAttr _ attrs c) as [c1 [[[[[[x y] w] h] rx] ry]|e| |]]; try discriminate.
  destruct (_ || _); [exact H|]. unfold curXY, gets, lift in *.
  match type of H with context [addRoundRect f ?a ?b ?d ?e ?g ?h0 ?i ?j] => destruct (addRoundRect f a b d e g h0 i j) as [p'|e'| |] eqn:Hr end; try discriminate.
  rewrite (round_more _ _ _ _ _ _ _ _ _ _ _ Hf Hr). exact H.
Qed.

Theorem alone_faithful md m : faithful md m (alone E md m).
Proof.
  intros fuel vb off name attrs p0 c Hm (Hn & Hp & df0 & c0 & Hd0 & H0 & P0). split; [exact Hn|]. intros HM Hvb Hoff Hpath.
  destruct (more_fuel m fuel name attrs _ _ Hn Hm df0 Hd0 H0) as (df & Hd & H).
  destruct (al_shape [] false fuel name df attrs Hn Hp Hd c (start_at E md vb off)) as (K1 & K2).
  { unfold offset in Hoff. unfold alike. cbn. subst. cbn. repeat split; auto. discriminate. }
  rewrite H in K1, K2. specialize (K2 eq_refl). rewrite joined_nil in K2. cbn [fst snd] in K1, K2. pose proof (st_shape fuel name df attrs Hn Hd c) as (S1 & S2 & S3 & S4).
  destruct (df attrs c) as [c' o] eqn:Hc. cbn [fst snd] in *. subst o.
  exists df, (c_pc c'). split; [exact Hd|]. split; [rewrite Hc, <- S1; reflexivity|]. split.
  { unfold offset in Hoff. congruence. }
  split; [congruence|]. rewrite K2, P0. split; [|tauto].
  split; [exact Hn|]. split; [exact Hp|]. exists df0, c0. auto.
Qed.
End L.

(** * ProofsStream2: enough fuel is enough *)
From Coq Require Import Lia.
From Verif Require Export ProofsStream.
Local Open Scope go_scope.

Section Fuel.
Context {E : Env}.
Notation cursor := (cursor E).
Definition le_o {A} (o o' : outcome A) : Prop := o <> NoFuel -> o' = o.
Definition le_m {A} (m m' : M cursor A) : Prop := forall c, snd (m c) <> NoFuel -> m' c = m c.
Lemma le_obind {A B} (o o' : outcome A) (k k' : A -> outcome B) : le_o o o' -> (forall a, le_o (k a) (k' a)) -> le_o (obind o k) (obind o' k').
Proof. intros H K N. destruct o as [a|e| |]; try (rewrite H by discriminate; cbn; auto); [apply K, N|destruct N; reflexivity]. Qed.
Lemma le_refl {A} (m : M cursor A) : le_m m m. Proof. intros c _. reflexivity. Qed.
Lemma le_bind {A B} (m m' : M cursor A) (k k' : A -> M cursor B) : le_m m m' -> (forall a, le_m (k a) (k' a)) -> le_m (bind m k) (bind m' k').
Proof.
  intros H K c N. unfold bind in *. specialize (H c). destruct (m c) as [c1 [a|e| |]]; try (rewrite H by discriminate; auto); [apply K, N|destruct N; reflexivity].
Qed.
Lemma le_attempt (m m' : M cursor unit) : le_m m m' -> le_m (attempt m) (attempt m').
Proof. intros H c N. unfold attempt in *. specialize (H c). destruct (m c) as [c1 [a|e| |]]; try (rewrite H by discriminate; reflexivity). destruct N; reflexivity. Qed.
Lemma le_deferred {A} f (m m' : M cursor A) : le_m m m' -> le_m (deferred f m) (deferred f m').
Proof. intros H c N. unfold deferred in *. specialize (H c). destruct (m c) as [c1 o]. rewrite H by exact N. reflexivity. Qed.
Lemma le_lift {A} (o o' : outcome A) : le_o o o' -> le_m (lift o) (lift o').
Proof. intros H c N. unfold lift in *. cbn in N. rewrite (H N). reflexivity. Qed.
Lemma le_if {A} (b : bool) (m m' n n' : M cursor A) : le_m m m' -> le_m n n' -> le_m (if b then m else n) (if b then m' else n').
Proof. destruct b; auto. Qed.
Lemma le_raise_angle f : forall f' a b, f <= f' -> le_o (raise_angle (E := E) f a b) (raise_angle (E := E) f' a b).
Proof.
  induction f as [|f IH]; intros [|f'] a b Hf N; cbn [raise_angle] in *; try lia; destruct (fltb E a b); try reflexivity; try (destruct N; reflexivity).
  apply IH; [lia|exact N].
Qed.
Lemma le_roundGap f f' m a t l p : f <= f' -> le_o (roundGap (E := E) f m a t l p) (roundGap (E := E) f' m a t l p).
Proof.
  intros Hf. unfold roundGap, addCircArc. cbv zeta. apply le_obind; [|intros q _; reflexivity]. apply le_obind; [apply le_raise_angle, Hf|intros q _; reflexivity].
Qed.
Lemma le_addRoundRect f f' x0 y0 x1 y1 rx ry rot (p : path) : f <= f' ->
  le_o (addRoundRect (E := E) f x0 y0 x1 y1 rx ry rot p) (addRoundRect (E := E) f' x0 y0 x1 y1 rx ry rot p).
Proof.
  intros Hf. unfold addRoundRect. cbv zeta. destruct (_ || _); [intros _; reflexivity|].
  do 4 (apply le_obind; [apply le_roundGap, Hf|intros ?]). intros _. reflexivity.
Qed.
Lemma le_rectF f f' attrs : f <= f' -> le_m (rectF (E := E) f attrs) (rectF (E := E) f' attrs).
Proof.
  intros Hf. unfold rectF. apply le_bind; [apply le_refl|]. intros [[[[[x y] w] h] rx] ry]. apply le_if; [apply le_refl|]. cbv zeta.
  apply le_bind; [apply le_refl|]. intros [cx cy]. apply le_bind; [apply le_refl|]. intros p. apply le_bind; [apply le_lift, le_addRoundRect, Hf|]. intros q. apply le_refl.
Qed.
Definition le_df (o o' : option (list attr -> M cursor unit)) : Prop :=
  match o, o' with Some df, Some df' => forall attrs, le_m (df attrs) (df' attrs) | None, None => True | _, _ => False end.
Lemma le_drawFunc f f' name : f <= f' -> le_df (drawFunc (E := E) f name) (drawFunc (E := E) f' name).
Proof.
  intros Hf. unfold drawFunc.
  repeat match goal with |- le_df (if ?b then _ else _) _ => destruct b; [intros attrs; first [apply le_refl|apply le_rectF, Hf]|] end. exact I.
Qed.
Lemma le_useLoop draw draw' ds : (forall t, le_df (draw t) (draw' t)) -> le_m (useLoop (E := E) draw ds) (useLoop (E := E) draw' ds).
Proof.
  intros Hd. induction ds as [|d ds IH]; cbn [useLoop]; [apply le_refl|]. apply le_if.
  { apply le_bind; [apply le_refl|]. intros []. exact IH. }
  apply le_bind; [apply le_refl|]. intros []. specialize (Hd (d_tag d)). destruct (draw (d_tag d)) as [df|], (draw' (d_tag d)) as [df'|]; try contradiction; [|apply le_refl].
  apply le_bind; [apply Hd|]. intros []. apply le_bind; [apply le_refl|]. intros []. exact IH.
Qed.
Lemma le_useF f : forall f' attrs, f <= f' -> le_m (useF (E := E) f attrs) (useF (E := E) f' attrs).
Proof.
  induction f as [|f IH]; intros [|f'] attrs Hf; try lia.
  { intros c N. destruct N. reflexivity. } { intros c N. destruct N. reflexivity. }
  cbn [useF]. apply le_bind; [apply le_refl|]. intros [[href x] y]. apply le_bind; [apply le_refl|]. intros []. apply le_deferred.
  apply le_if; [apply le_refl|]. apply le_if; [apply le_refl|]. apply le_bind; [apply le_refl|]. intros id. apply le_bind; [apply le_refl|]. intros defs.
  destruct (mget id defs) as [ds|]; [|apply le_refl]. apply le_useLoop. intros t. destruct (String.eqb t "use"); [|apply le_drawFunc; lia].
  intros at0. apply IH. lia.
Qed.
Lemma le_step f f' t : f <= f' -> le_m (stepToken (E := E) f t) (stepToken (E := E) f' t).
Proof.
  intros Hf. destruct t as [name attrs|name|s|]; cbn [stepToken]; try apply le_refl. apply le_bind; [apply le_refl|]. intros [].
  unfold readStartElement. apply le_bind; [apply le_refl|]. intros c0. cbv zeta. apply le_if; [apply le_refl|].
  assert (H : le_df (drawFuncs (E := E) f name) (drawFuncs (E := E) f' name)).
  { unfold drawFuncs. destruct (String.eqb name "use"); [intros at0; apply le_useF, Hf|apply le_drawFunc, Hf]. }
  destruct (drawFuncs f name) as [df|], (drawFuncs f' name) as [df'|]; try contradiction; [|apply le_refl].
  apply le_bind; [apply le_attempt, H|]. intros e. apply le_refl.
Qed.
Lemma le_mapM f f' toks : f <= f' -> le_m (mapM (stepToken (E := E) f) toks) (mapM (stepToken (E := E) f') toks).
Proof. intros Hf. induction toks as [|t toks IH]; cbn [mapM]; [apply le_refl|]. apply le_bind; [apply le_step, Hf|]. intros []. exact IH. Qed.
Theorem parse_fuel f f' mode toks tm : f <= f' -> parse (E := E) f mode toks tm <> PNoFuel -> parse (E := E) f' mode toks tm = parse f mode toks tm.
Proof.
  intros Hf N. unfold parse in *. pose proof (le_mapM f f' toks Hf (cursor0 mode)) as H.
  rewrite H; [reflexivity|]. destruct (mapM (stepToken f) toks (cursor0 mode)) as [c [[]|e| |]]; try discriminate. destruct N. reflexivity.
Qed.
End Fuel.

(** * Logic: reasoning about the state monad of [Base]

    [keeps R m]   whatever happens in [m], initial and final state are related by [R]
    [rel2 R R' Q m1 m2]   the two computations agree on the outcome; the states, related by [R]
                  before, are related by [R'] after a return and by [Q] otherwise
    [wp m K s]    [K] holds of the outcome and final state of [m] started in [s] *)
From Coq Require Import Lia.
From Verif Require Export Elements.
Local Open Scope go_scope.

(** a normal return or an error: no panic, no missing fuel *)
Definition fine {A} (o : outcome A) : Prop :=
  match o with Ret _ | Err _ => True | Panic | NoFuel => False end.

Section Keeps.
Context {S : Type} (R : S -> S -> Prop) (Hrefl : forall s, R s s) (Htrans : forall a b c, R a b -> R b c -> R a c).
Definition keeps {A} (m : M S A) : Prop := forall s, R s (fst (m s)).
Lemma keeps_ret {A} (a : A) : keeps (ret a). Proof. intros s; apply Hrefl. Qed.
Lemma keeps_raise {A} e : keeps (@raise S A e). Proof. intros s; apply Hrefl. Qed.
Lemma keeps_panic {A} : keeps (@gopanic S A). Proof. intros s; apply Hrefl. Qed.
Lemma keeps_nofuel {A} : keeps (@nofuel S A). Proof. intros s; apply Hrefl. Qed.
Lemma keeps_lift {A} (o : outcome A) : keeps (lift o). Proof. intros s; apply Hrefl. Qed.
Lemma keeps_gets {A} (f : S -> A) : keeps (gets f). Proof. intros s; apply Hrefl. Qed.
Lemma keeps_modify (f : S -> S) : (forall s, R s (f s)) -> keeps (modify f). Proof. intros H s; apply H. Qed.
Lemma keeps_bind {A B} (m : M S A) (k : A -> M S B) : keeps m -> (forall a, keeps (k a)) -> keeps (bind m k).
Proof.
  intros Hm Hk s. unfold bind. specialize (Hm s). destruct (m s) as [s' [a|e| |]]; cbn in *; auto.
  eapply Htrans; [exact Hm|apply Hk].
Qed.
Lemma keeps_if {A} (b : bool) (m n : M S A) : keeps m -> keeps n -> keeps (if b then m else n).
Proof. destruct b; auto. Qed.
Lemma keeps_attempt (m : M S unit) : keeps m -> keeps (attempt m).
Proof. intros Hm s. unfold attempt. specialize (Hm s). destruct (m s) as [s' [a|e| |]]; cbn in *; auto. Qed.
Lemma keeps_deferred {A} f (m : M S A) : (forall s, R s (f s)) -> keeps m -> keeps (deferred f m).
Proof. intros Hf Hm s. unfold deferred. specialize (Hm s). destruct (m s) as [s' o]; cbn in *. eapply Htrans; eauto. Qed.
Lemma keeps_loop fuel : forall i step bound (body : nat -> M S unit), (forall i, keeps (body i)) -> keeps (loop fuel i step bound body).
Proof.
  induction fuel as [|fuel IH]; intros i step bound body Hb; cbn [loop]; destruct (i <? bound);
    auto using keeps_ret, keeps_nofuel, keeps_bind.
Qed.
Lemma keeps_mapM {A} (f : A -> M S unit) l : (forall a, keeps (f a)) -> keeps (mapM f l).
Proof. intros Hf. induction l; cbn [mapM]; auto using keeps_ret, keeps_bind. Qed.
Lemma keeps_foldM {A L} (f : L -> A -> M S L) xs : forall l, (forall l a, keeps (f l a)) -> keeps (foldM f l xs).
Proof. induction xs; intros l Hf; cbn [foldM]; auto using keeps_ret, keeps_bind. Qed.
End Keeps.

Section Rel2.
Context {S : Type}.
Definition rel2 {A} (R R' Q : S -> S -> Prop) (m1 m2 : M S A) : Prop := forall s1 s2, R s1 s2 ->
  match m1 s1, m2 s2 with
  | (t1, Ret a), (t2, Ret b) => a = b /\ R' t1 t2
  | (t1, Err e), (t2, Err e') => e = e' /\ Q t1 t2
  | (t1, Panic), (t2, Panic) => Q t1 t2
  | (t1, NoFuel), (t2, NoFuel) => Q t1 t2
  | _, _ => False
  end.
Lemma rel2_ret {A} (R Q : S -> S -> Prop) (a : A) : rel2 R R Q (ret a) (ret a).
Proof. intros s1 s2 H. cbn. auto. Qed.
Lemma rel2_raise {A} (R R' Q : S -> S -> Prop) e : (forall s t, R s t -> Q s t) -> rel2 R R' Q (@raise S A e) (raise e).
Proof. intros HQ s1 s2 H. cbn. auto. Qed.
Lemma rel2_nofuel {A} (R R' Q : S -> S -> Prop) : (forall s t, R s t -> Q s t) -> rel2 R R' Q (@nofuel S A) nofuel.
Proof. intros HQ s1 s2 H. cbn. auto. Qed.
Lemma rel2_lift {A} (R Q : S -> S -> Prop) (o : outcome A) : (forall s t, R s t -> Q s t) -> rel2 R R Q (lift o) (lift o).
Proof. intros HQ s1 s2 H. unfold lift. destruct o; auto. Qed.
Lemma rel2_gets {A} (R Q : S -> S -> Prop) (f : S -> A) : (forall s t, R s t -> f s = f t) -> rel2 R R Q (gets f) (gets f).
Proof. intros Hf s1 s2 H. cbn. auto. Qed.
Lemma rel2_modify (R R' Q : S -> S -> Prop) (f g : S -> S) : (forall s t, R s t -> R' (f s) (g t)) -> rel2 R R' Q (modify f) (modify g).
Proof. intros Hf s1 s2 H. cbn. auto. Qed.
Lemma rel2_bind {A B} (R R1 R2 Q : S -> S -> Prop) (m1 m2 : M S A) (k1 k2 : A -> M S B) :
  rel2 R R1 Q m1 m2 -> (forall a, rel2 R1 R2 Q (k1 a) (k2 a)) -> rel2 R R2 Q (bind m1 k1) (bind m2 k2).
Proof.
  intros Hm Hk s1 s2 H. specialize (Hm s1 s2 H). unfold bind.
  destruct (m1 s1) as [t1 [a|e| |]], (m2 s2) as [t2 [b|e'| |]]; try contradiction; auto.
  destruct Hm as [-> Hm]. exact (Hk b t1 t2 Hm).
Qed.
Lemma rel2_weaken {A} (R R1 R2 R3 Q Q' : S -> S -> Prop) (m1 m2 : M S A) :
  rel2 R1 R2 Q m1 m2 -> (forall s t, R s t -> R1 s t) -> (forall s t, R2 s t -> R3 s t) -> (forall s t, Q s t -> Q' s t) ->
  rel2 R R3 Q' m1 m2.
Proof.
  intros Hm H1 H2 H3 s1 s2 H. specialize (Hm s1 s2 (H1 _ _ H)).
  destruct (m1 s1) as [t1 [a|e| |]], (m2 s2) as [t2 [b|e'| |]]; try contradiction; auto;
    destruct Hm; auto.
Qed.
Lemma rel2_if {A} (R R' Q : S -> S -> Prop) (b : bool) (m1 m2 n1 n2 : M S A) :
  rel2 R R' Q m1 m2 -> rel2 R R' Q n1 n2 -> rel2 R R' Q (if b then m1 else n1) (if b then m2 else n2).
Proof. destruct b; auto. Qed.
Lemma rel2_loop (R Q : S -> S -> Prop) fuel : forall i step bound (b1 b2 : nat -> M S unit),
  (forall s t, R s t -> Q s t) -> (forall i, rel2 R R Q (b1 i) (b2 i)) ->
  rel2 R R Q (loop fuel i step bound b1) (loop fuel i step bound b2).
Proof.
  induction fuel as [|fuel IH]; intros i step bound b1 b2 HQ Hb; cbn [loop]; destruct (i <? bound);
    auto using rel2_ret, rel2_nofuel. eapply rel2_bind; eauto.
Qed.
Lemma rel2_mapM {A} (R Q : S -> S -> Prop) (f g : A -> M S unit) l :
  (forall a, rel2 R R Q (f a) (g a)) -> rel2 R R Q (mapM f l) (mapM g l).
Proof. intros Hf. induction l; cbn [mapM]; auto using rel2_ret. eapply rel2_bind; eauto. Qed.
Lemma rel2_foldM {A L} (R Q : S -> S -> Prop) (f g : L -> A -> M S L) xs : forall l,
  (forall l a, rel2 R R Q (f l a) (g l a)) -> rel2 R R Q (foldM f l xs) (foldM g l xs).
Proof. induction xs; intros l Hf; cbn [foldM]; auto using rel2_ret. eapply rel2_bind; eauto. Qed.
Lemma rel2_attempt (R Q : S -> S -> Prop) (m1 m2 : M S unit) : (forall s t, Q s t -> R s t) ->
  rel2 R R Q m1 m2 -> rel2 R R Q (attempt m1) (attempt m2).
Proof.
  intros HQ Hm s1 s2 H. specialize (Hm s1 s2 H). unfold attempt.
  destruct (m1 s1) as [t1 [a|e| |]], (m2 s2) as [t2 [b|e'| |]]; try contradiction; auto;
    destruct Hm; subst; auto.
Qed.
Lemma rel2_deferred {A} (R R1 R2 Q Q' : S -> S -> Prop) f g (m1 m2 : M S A) :
  rel2 R R1 Q m1 m2 -> (forall s t, R1 s t -> R2 (f s) (g t)) -> (forall s t, Q s t -> Q' (f s) (g t)) ->
  rel2 R R2 Q' (deferred f m1) (deferred g m2).
Proof.
  intros Hm Hf Hg s1 s2 H. specialize (Hm s1 s2 H). unfold deferred.
  destruct (m1 s1) as [t1 [a|e| |]], (m2 s2) as [t2 [b|e'| |]]; try contradiction; auto;
    destruct Hm; subst; auto.
Qed.
End Rel2.

Section Wp.
Context {S : Type}.
Definition wp {A} (m : M S A) (K : outcome A -> S -> Prop) (s : S) : Prop := let (t, o) := m s in K o t.
(** continue with [K] after a return, [K'] otherwise *)
Definition andThen {A B} (k : A -> M S B) (K : outcome B -> S -> Prop) (o : outcome A) (s : S) : Prop :=
  match o with
  | Ret a => wp (k a) K s
  | Err e => K (Err e) s
  | Panic => K Panic s
  | NoFuel => K NoFuel s
  end.
Lemma wp_bind {A B} (m : M S A) (k : A -> M S B) K s : wp m (andThen k K) s -> wp (bind m k) K s.
Proof. unfold wp, bind, andThen, wp. destruct (m s) as [t [a|e| |]]; auto. Qed.
Lemma wp_mono {A} (m : M S A) (K K' : outcome A -> S -> Prop) s : wp m K s -> (forall o t, K o t -> K' o t) -> wp m K' s.
Proof. unfold wp. destruct (m s). auto. Qed.
End Wp.

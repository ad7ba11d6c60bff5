(** * Triples: pre- and postconditions for the state monad of [Base]

    [tri P m Q W]: started in a state with [P], [m] either returns [a] in a state with [Q a], or
    fails as [o] (an error, a panic or missing fuel) in a state with [W o]. *)
From Coq Require Import Lia.
From Verif Require Export Logic ProofsKeep.
Local Open Scope go_scope.

Section Tri.
Context {S : Type}.
Definition tri {A} (P : S -> Prop) (m : M S A) (Q : A -> S -> Prop) (W : outcome unit -> S -> Prop) : Prop :=
  forall s, P s -> match m s with
  | (t, Ret a) => Q a t
  | (t, Err e) => W (Err e) t
  | (t, Panic) => W Panic t
  | (t, NoFuel) => W NoFuel t
  end.
Lemma tri_weaken {A} (P P' : S -> Prop) (m : M S A) (Q Q' : A -> S -> Prop) (W W' : outcome unit -> S -> Prop) :
  tri P m Q W -> (forall s, P' s -> P s) -> (forall a s, Q a s -> Q' a s) -> (forall o s, W o s -> W' o s) -> tri P' m Q' W'.
Proof. intros H H1 H2 H3 s Hs. specialize (H s (H1 s Hs)). destruct (m s) as [t [a|e| |]]; auto. Qed.
Lemma tri_pre {A} (P P' : S -> Prop) (m : M S A) Q W : tri P m Q W -> (forall s, P' s -> P s) -> tri P' m Q W.
Proof. intros. eapply tri_weaken; eauto. Qed.
Lemma tri_post {A} (P : S -> Prop) (m : M S A) (Q Q' : A -> S -> Prop) W : tri P m Q W -> (forall a s, Q a s -> Q' a s) -> tri P m Q' W.
Proof. intros. eapply tri_weaken; eauto. Qed.
Lemma tri_ret {A} (P : S -> Prop) (a : A) (Q : A -> S -> Prop) W : (forall s, P s -> Q a s) -> tri P (ret a) Q W.
Proof. intros H s Hs. apply H, Hs. Qed.
Lemma tri_raise {A} (P : S -> Prop) e (Q : A -> S -> Prop) (W : outcome unit -> S -> Prop) : (forall s, P s -> W (Err e) s) -> tri P (raise e) Q W.
Proof. intros H s Hs. apply H, Hs. Qed.
Lemma tri_nofuel {A} (P : S -> Prop) (Q : A -> S -> Prop) (W : outcome unit -> S -> Prop) : (forall s, P s -> W NoFuel s) -> tri P nofuel Q W.
Proof. intros H s Hs. apply H, Hs. Qed.
Lemma tri_gets {A} (P : S -> Prop) (f : S -> A) (Q : A -> S -> Prop) W : (forall s, P s -> Q (f s) s) -> tri P (gets f) Q W.
Proof. intros H s Hs. apply H, Hs. Qed.
Lemma tri_modify (P : S -> Prop) (f : S -> S) (Q : unit -> S -> Prop) W : (forall s, P s -> Q tt (f s)) -> tri P (modify f) Q W.
Proof. intros H s Hs. apply H, Hs. Qed.
Definition as_unit {A} (o : outcome A) : outcome unit :=
  match o with Ret _ => Ret tt | Err e => Err e | Panic => Panic | NoFuel => NoFuel end.
Lemma tri_lift {A} (P : S -> Prop) (o : outcome A) (Q : A -> S -> Prop) (W : outcome unit -> S -> Prop) :
  (forall a s, o = Ret a -> P s -> Q a s) -> (forall s, (forall a, o <> Ret a) -> P s -> W (as_unit o) s) -> tri P (lift o) Q W.
Proof. intros H1 H2 s Hs. unfold lift. destruct o; auto; apply (H2 s); auto; intros; discriminate. Qed.
Lemma tri_bind {A B} (P : S -> Prop) (m : M S A) (k : A -> M S B) Q R W :
  tri P m Q W -> (forall a, tri (Q a) (k a) R W) -> tri P (bind m k) R W.
Proof.
  intros Hm Hk s Hs. specialize (Hm s Hs). unfold bind. destruct (m s) as [t [a|e| |]]; auto. exact (Hk a t Hm).
Qed.
Lemma tri_if {A} (P : S -> Prop) (b : bool) (m n : M S A) Q W : tri P m Q W -> tri P n Q W -> tri P (if b then m else n) Q W.
Proof. destruct b; auto. Qed.
Lemma tri_attempt (P : S -> Prop) (m : M S unit) Q (W : outcome unit -> S -> Prop) :
  tri P m Q W ->
  tri P (attempt m) (fun o s => match o with None => Q tt s | Some e => W (Err e) s end) W.
Proof. intros H s Hs. specialize (H s Hs). unfold attempt. destruct (m s) as [t [[]|e| |]]; auto. Qed.
Lemma tri_deferred {A} (P : S -> Prop) f (m : M S A) (Q Q' : A -> S -> Prop) (W W' : outcome unit -> S -> Prop) :
  tri P m Q W -> (forall a s, Q a s -> Q' a (f s)) -> (forall o s, W o s -> W' o (f s)) -> tri P (deferred f m) Q' W'.
Proof. intros H H1 H2 s Hs. specialize (H s Hs). unfold deferred. destruct (m s) as [t [a|e| |]]; auto. Qed.
Lemma tri_mapM {A} (P : S -> Prop) (f : A -> M S unit) l (W : outcome unit -> S -> Prop) :
  (forall a, List.In a l -> tri P (f a) (fun _ => P) W) -> tri P (mapM f l) (fun _ => P) W.
Proof.
  induction l as [|a l IH]; intros H; cbn [mapM]. { apply tri_ret. auto. }
  eapply tri_bind. { apply H. now left. } intros []. apply IH. intros b Hb. apply H. now right.
Qed.
Lemma tri_foldM {A L} (P : L -> S -> Prop) (f : L -> A -> M S L) xs (W : outcome unit -> S -> Prop) : forall l,
  (forall l a, List.In a xs -> tri (P l) (f l a) P W) -> tri (P l) (foldM f l xs) P W.
Proof.
  induction xs as [|a xs IH]; intros l H; cbn [foldM]. { apply tri_ret. auto. }
  eapply tri_bind. { apply H. now left. } intros l'. apply IH. intros l2 b Hb. apply H. now right.
Qed.
(** a relation that holds whatever happens gives an invariant *)
Lemma tri_keeps {A} (R : S -> S -> Prop) (m : M S A) (P : S -> Prop) : keeps R m -> (forall s t, R s t -> P s -> P t) ->
  tri P m (fun _ => P) (fun _ => P).
Proof. intros H HR s Hs. specialize (H s). destruct (m s) as [t [a|e| |]]; cbn in *; eauto. Qed.
Lemma tri_and {A} (P P' : S -> Prop) (m : M S A) (Q Q' : A -> S -> Prop) (W W' : outcome unit -> S -> Prop) :
  tri P m Q W -> tri P' m Q' W' -> tri (fun s => P s /\ P' s) m (fun a s => Q a s /\ Q' a s) (fun o s => W o s /\ W' o s).
Proof. intros H1 H2 s [Hs Hs']. specialize (H1 s Hs). specialize (H2 s Hs'). destruct (m s) as [t [a|e| |]]; auto. Qed.
End Tri.

(** ** Functions that change only the path cursor *)
Section PcOnly.
Context {E : Env}.
Notation cursor := (cursor E).
Definition pc_only (c c' : cursor) : Prop := exists p, c' = c_set_pc p c.
Lemma pco_refl c : pc_only c c. Proof. exists (c_pc c). destruct c; reflexivity. Qed.
Lemma pco_trans a b c : pc_only a b -> pc_only b c -> pc_only a c.
Proof. intros [p ->] [q ->]. exists q. reflexivity. Qed.
Lemma pco_pc p c : pc_only c (c_set_pc p c). Proof. exists p. reflexivity. Qed.
Definition outlines : list string := ["g"; "line"; "rect"; "circle"; "ellipse"; "polyline"; "polygon"; "path"].
Lemma outline_pc_only fuel name df attrs : drawFunc (E := E) fuel name = Some df -> List.In name outlines -> keeps pc_only (df attrs).
Proof.
  unfold drawFunc. intros H Hn.
  repeat (destruct Hn as [<-|Hn]; [cbn in H; injection H as <-|]); [..|destruct Hn].
  - apply (keeps_ret _ pco_refl). - apply (kp_lineF _ pco_refl pco_trans pco_pc). - apply (kp_rectF _ pco_refl pco_trans pco_pc).
  - apply (kp_circleF _ pco_refl pco_trans pco_pc). - apply (kp_circleF _ pco_refl pco_trans pco_pc).
  - apply (kp_polylineF _ pco_refl pco_trans pco_pc). - apply (kp_polygonF _ pco_refl pco_trans pco_pc). - apply (kp_pathF _ pco_refl pco_trans pco_pc).
Qed.
Lemma handleError_pc_only s : keeps pc_only (handleError (E := E) s).
Proof. apply (kp_handleError _ pco_refl pco_trans pco_pc). Qed.
End PcOnly.

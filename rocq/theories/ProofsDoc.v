(** * ProofsDoc: the style stack *)
From Coq Require Import Lia.
From Verif Require Export SpecDoc ProofsKeep.
Local Open Scope go_scope.

Section NodeInd.
Context (P : node -> Prop) (HE : forall name attrs kids, Forall P kids -> P (Elem name attrs kids))
  (HC : forall s, P (Chars s)) (HM : P Misc).
Fixpoint node_ind' (n : node) : P n :=
  match n with
  | Elem name attrs kids => HE name attrs kids ((fix go (l : list node) : Forall P l :=
      match l with [] => Forall_nil P | x :: r => Forall_cons x (node_ind' x) (go r) end) kids)
  | Chars s => HC s
  | Misc => HM
  end.
End NodeInd.

Section PD.
Context {E : Env}.
Notation cursor := (cursor E).

Lemma mapM_app {A} (f : A -> @C E unit) a : forall b c, mapM f (a ++ b) c = bind (mapM f a) (fun _ => mapM f b) c.
Proof.
  induction a as [|x a IH]; intros b c; [reflexivity|].
  cbn [app mapM]. unfold bind at 1 2 3. destruct (f x c) as [c1 [[]|e| |]]; try reflexivity. exact (IH b c1).
Qed.
Lemma seqC {A B} (m : @C E A) (k : A -> @C E B) c c' b : bind m k c = (c', Ret b) ->
  exists c1 a, m c = (c1, Ret a) /\ k a c1 = (c', Ret b).
Proof. unfold bind. destruct (m c) as [c1 [a|e| |]]; intros H; try discriminate. eauto. Qed.

(** ** C13: every closed element leaves the stack as it was *)
Definition same_stack (a b : cursor) : Prop := c_stack b = c_stack a.
Lemma ss_refl c : same_stack c c. Proof. reflexivity. Qed.
Lemma ss_trans a b c : same_stack a b -> same_stack b c -> same_stack a c.
Proof. unfold same_stack. congruence. Qed.
Ltac ss := try exact ss_refl; try exact ss_trans; try (intros; reflexivity).
Lemma start_stack fuel name attrs : name <> "use"%string -> keeps same_stack (readStartElement (E := E) fuel name attrs).
Proof.
  intros Hn. apply kp_readStartElement; ss.
  intros df Hdf. unfold drawFuncs in Hdf. apply String.eqb_neq in Hn. rewrite Hn in Hdf.
  eapply kp_drawFunc; ss. eassumption.
Qed.
Lemma rest_stack name : keeps same_stack (endRest (E := E) name).
Proof. apply kp_endRest; ss. Qed.
Lemma chars_stack s : keeps same_stack (charData (E := E) s).
Proof. apply kp_charData; ss. Qed.

Theorem nodes_stack fuel ns : existsb (mentions "use") ns = false ->
  forall (c c' : cursor), mapM (stepToken fuel) (flat_map tokens ns) c = (c', Ret tt) -> c_stack c' = c_stack c.
Proof.
  assert (HF : forall l, Forall (fun n => mentions "use" n = false ->
      forall c c' : cursor, mapM (stepToken fuel) (tokens n) c = (c', Ret tt) -> c_stack c' = c_stack c) l ->
      existsb (mentions "use") l = false ->
      forall c c' : cursor, mapM (stepToken fuel) (flat_map tokens l) c = (c', Ret tt) -> c_stack c' = c_stack c).
  { induction 1 as [|n l Hn _ IH]; intros Hu c c' H.
    - cbn in H. unfold ret in H. injection H as <-. reflexivity.
    - cbn [existsb] in Hu. apply Bool.orb_false_iff in Hu. destruct Hu as [Hu1 Hu2].
      cbn [flat_map] in H. rewrite mapM_app in H. apply seqC in H. destruct H as (c1 & [] & H1 & H2).
      rewrite (IH Hu2 _ _ H2). exact (Hn Hu1 _ _ H1). }
  assert (HN : forall n, mentions "use" n = false ->
      forall c c' : cursor, mapM (stepToken fuel) (tokens n) c = (c', Ret tt) -> c_stack c' = c_stack c).
  { apply (node_ind' (fun n => mentions "use" n = false -> forall c c' : cursor, mapM (stepToken fuel) (tokens n) c = (c', Ret tt) -> c_stack c' = c_stack c)).
    - intros name attrs kids IH Hu c c' H. cbn [mentions] in Hu. apply Bool.orb_false_iff in Hu. destruct Hu as [Hu1 Hu2].
      apply String.eqb_neq in Hu1. cbn [tokens] in H. cbn [mapM] in H.
      apply seqC in H. destruct H as (c1 & [] & H1 & H). cbn [stepToken] in H1.
      apply seqC in H1. destruct H1 as (c0 & [] & H0 & H1).
      destruct (pushStyle_inv same_stack ss_refl ss_trans (fun _ _ => eq_refl) (fun _ _ => eq_refl) _ _ _ H0) as (st & c2 & Hst & ->).
      pose proof (start_stack fuel name attrs Hu1 (c_set_stack (st :: c_stack c2) c2)) as K. rewrite H1 in K. unfold same_stack in K. cbn in K.
      rewrite mapM_app in H. apply seqC in H. destruct H as (c3 & [] & H3 & H).
      apply (HF kids IH Hu2) in H3. cbn [mapM] in H. apply seqC in H. destruct H as (c4 & [] & H4 & H). unfold ret in H. injection H as <-.
      cbn [stepToken] in H4. rewrite endElement_rest in H4. apply seqC in H4. destruct H4 as (c5 & [] & H5 & H4).
      unfold popStyle in H5. rewrite H3, K in H5. injection H5 as <-.
      pose proof (rest_stack name (c_set_stack (c_stack c2) c3)) as K2. rewrite H4 in K2. unfold same_stack in K2, Hst. cbn in K2. congruence.
    - intros s _ c c' H. cbn [tokens mapM] in H. apply seqC in H. destruct H as (c1 & [] & H1 & H). unfold ret in H. injection H as <-.
      cbn [stepToken] in H1. pose proof (chars_stack s c) as K. rewrite H1 in K. exact K.
    - intros _ c c' H. cbn in H. injection H as <-. reflexivity. }
  apply HF. apply Forall_forall. intros n _. apply HN.
Qed.
End PD.

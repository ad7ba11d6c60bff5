(** * ProofsReshape: edits that keep a document right (C78) *)
From Coq Require Import ZArith Lia.
From Verif Require Import SpecReshape.
From Verif Require Import ProofsTok ProofsFuel ProofsValid4.
From Verif Require Export ProofsPanic2.
From Verif Require Import SpecValid SpecReshape.
Local Open Scope nat_scope.

Lemma g_here d g : (d || String.eqb "g" "defs") = d /\ (g || is_grad_name "g") = g.
Proof. cbn. rewrite !orb_false_r. split; reflexivity. Qed.
Lemma wn_g d g ks : well_nested d g (Elem "g" [] ks) = forallb (well_nested d g) ks.
Proof. cbn [well_nested]. destruct (g_here d g) as [-> ->]. cbn. destruct d, g; reflexivity. Qed.
Lemma reshaped_nested ns ms : reshaped ns ms -> forall d g, forallb (well_nested d g) ns = true -> forallb (well_nested d g) ms = true.
Proof.
  induction 1 as [|name attrs ks ks' ns ms _ IHk _ IH|n ns ms _ IH|name attrs ks ns ms N1 N2 _ IH|s ns ms _ IH|ns ms _ IH|ns ks ns' ms _ IHk _ IH]; intros d g H; cbn [forallb] in *.
  - reflexivity.
  - apply andb_prop in H as [H1 H2]. rewrite (IH d g H2), andb_true_r. cbn [well_nested] in *. apply andb_prop in H1 as [H1 H3]. rewrite H1, (IHk _ _ H3). reflexivity.
  - apply andb_prop in H as [_ H]. auto.
  - apply andb_prop in H as [H1 H2]. apply IH. rewrite forallb_app, H2, andb_true_r. cbn [well_nested] in H1. apply andb_prop in H1 as [_ H1].
    apply String.eqb_neq in N1. rewrite N1, N2, !orb_false_r in H1. exact H1.
  - apply IH, H.
  - apply IH, H.
  - rewrite forallb_app in H. apply andb_prop in H as [H1 H2]. rewrite (wn_g d g ks), (IHk d g H1), (IH d g H2). reflexivity.
Qed.
Definition bare (p : bool * bool * (string * list attr)) : Prop := snd p = ("g"%string, []).
Lemma reshaped_placed ns ms : reshaped ns ms -> forall d g p, List.In p (flat_map (placed d g) ms) -> List.In p (flat_map (placed d g) ns) \/ bare p.
Proof.
  induction 1 as [|name attrs ks ks' ns ms _ IHk _ IH|n ns ms _ IH|name attrs ks ns ms N1 N2 _ IH|s ns ms _ IH|ns ms _ IH|ns ks ns' ms _ IHk _ IH]; intros d g p H; cbn [flat_map] in *.
  - destruct H.
  - apply in_app_iff in H as [H|H].
    + cbn [placed] in *. destruct H as [<-|H]; [left; apply in_app_iff; left; left; reflexivity|]. destruct (IHk _ _ _ H) as [K|K]; [left; apply in_app_iff; left; right; exact K|right; exact K].
    + destruct (IH _ _ _ H) as [K|K]; [left; apply in_app_iff; right; exact K|right; exact K].
  - destruct (IH _ _ _ H) as [K|K]; [left; apply in_app_iff; right; exact K|right; exact K].
  - destruct (IH _ _ _ H) as [K|K]; [|right; exact K]. left. rewrite flat_map_app in K. apply in_app_iff in K. apply in_app_iff. cbn [placed].
    apply String.eqb_neq in N1. rewrite N1, N2, !orb_false_r. destruct K as [K|K]; [left; right; exact K|right; exact K].
  - apply IH, H.
  - apply IH, H.
  - rewrite flat_map_app, in_app_iff. apply in_app_iff in H as [H|H].
    + cbn [placed] in H. destruct (g_here d g) as [G1 G2]. rewrite G1, G2 in H. destruct H as [<-|H]; [right; reflexivity|]. destruct (IHk _ _ _ H) as [K|K]; [left; left; exact K|right; exact K].
    + destruct (IH _ _ _ H) as [K|K]; [left; right; exact K|right; exact K].
Qed.
Lemma bare_valid E mode p : bare p -> valid_at E mode p.
Proof.
  destruct p as [[d g] el]. unfold bare. cbn [snd]. intros ->. constructor; cbn [fst snd].
  - intros a k v [].
  - intros _. left. cbn. tauto.
  - intros _. constructor.
  - discriminate.
  - discriminate.
Qed.
Lemma elements_placed ns d g : flat_map elements_of ns = map snd (flat_map (placed d g) ns).
Proof. induction ns as [|x ns IH]; [reflexivity|]. cbn [flat_map]. rewrite map_app, placed_elements, IH. reflexivity. Qed.
Lemma reshaped_ascii ns ms : reshaped ns ms -> Forall ascii_attrs (flat_map elements_of ns) -> Forall ascii_attrs (flat_map elements_of ms).
Proof.
  intros H Ha. rewrite (elements_placed _ false false), Forall_map, Forall_forall in *. intros p Hp. destruct (reshaped_placed _ _ H _ _ _ Hp) as [K|K]; [apply Ha; rewrite (elements_placed ns false false); apply in_map, K|]. rewrite K. constructor.
Qed.

Section Reshape.
Context {E : Env} (md : errorMode) (fuel kt : nat) (Hturns : turns (E := E) kt) (Hkt : kt <= fuel) (Hurl : lower_url E).
Theorem reshaped_accepted ns ms : reshaped ns ms -> forallb (well_nested false false) ns = true -> flat_map elements_of ms <> [] -> Forall ascii_attrs (flat_map elements_of ns) ->
  accepts E fuel md ns -> accepts E fuel md ms.
Proof.
  intros H Hw Hne Ha Hacc. pose proof (reshaped_nested _ _ H _ _ Hw) as Hw'. pose proof (reshaped_ascii _ _ H Ha) as Ha'.
  apply (accepted_valid md fuel kt Hturns Hkt Hurl ms Hw' Hne Ha'). apply Forall_forall. intros p Hp. destruct (reshaped_placed _ _ H _ _ _ Hp) as [K|K]; [|apply bare_valid, K].
  assert (Hns : flat_map elements_of ns <> []). { rewrite (elements_placed ns false false). intros Q. apply map_eq_nil in Q. rewrite Q in K. destruct K. }
  apply (accepted_valid md fuel kt Hturns Hkt Hurl ns Hw Hns Ha) in Hacc. rewrite Forall_forall in Hacc. apply Hacc, K.
Qed.
Theorem joined_accepted ns ms : forallb (well_nested false false) (ns ++ ms) = true -> flat_map elements_of ns <> [] -> flat_map elements_of ms <> [] ->
  Forall ascii_attrs (flat_map elements_of (ns ++ ms)) -> (accepts E fuel md (ns ++ ms) <-> accepts E fuel md ns /\ accepts E fuel md ms).
Proof.
  intros Hw H1 H2 Ha. pose proof Hw as Hw'. rewrite forallb_app in Hw'. apply andb_prop in Hw' as [W1 W2]. pose proof Ha as Ha'. rewrite flat_map_app in Ha'. apply Forall_app in Ha' as [A1 A2].
  assert (H3 : flat_map elements_of (ns ++ ms) <> []) by (rewrite flat_map_app; intros Q; apply app_eq_nil in Q as [Q _]; contradiction).
  rewrite (accepted_valid md fuel kt Hturns Hkt Hurl _ Hw H3 Ha), (accepted_valid md fuel kt Hturns Hkt Hurl _ W1 H1 A1), (accepted_valid md fuel kt Hturns Hkt Hurl _ W2 H2 A2).
  rewrite flat_map_app, Forall_app. reflexivity.
Qed.
Theorem joined_panics ns ms : forallb (well_nested false false) (ns ++ ms) = true -> flat_map elements_of ns <> [] -> Forall ascii_attrs (flat_map elements_of (ns ++ ms)) ->
  (parse (E := E) fuel md (flat_map tokens (ns ++ ms)) TermEOF = PPanic <->
   parse (E := E) fuel md (flat_map tokens ns) TermEOF = PPanic \/ accepts E fuel md ns /\ parse (E := E) fuel md (flat_map tokens ms) TermEOF = PPanic).
Proof.
  intros Hw H1 Ha. pose proof Hw as Hw'. rewrite forallb_app in Hw'. apply andb_prop in Hw' as [W1 W2]. pose proof Ha as Ha'. rewrite flat_map_app in Ha'. apply Forall_app in Ha' as [A1 A2].
  rewrite (document_panics md fuel kt Hturns Hkt Hurl _ Hw Ha), (document_panics md fuel kt Hturns Hkt Hurl _ W1 A1), (document_panics md fuel kt Hturns Hkt Hurl _ W2 A2), (accepted_valid md fuel kt Hturns Hkt Hurl _ W1 H1 A1).
  rewrite <- !fw_iff, flat_map_app. apply fw_app.
Qed.
Theorem grouped_accepted attrs ns : forallb (well_nested false false) ns = true -> flat_map elements_of ns <> [] -> Forall ascii_attrs (("g"%string, attrs) :: flat_map elements_of ns) ->
  (accepts E fuel md [Elem "g" attrs ns] <-> accepts E fuel md [Elem "g" attrs []] /\ accepts E fuel md ns).
Proof.
  intros Hw H1 Ha. inversion Ha as [|? ? A1 A2]; subst.
  assert (W : forallb (well_nested false false) [Elem "g" attrs ns] = true) by (cbn; rewrite andb_true_r; exact Hw).
  rewrite (accepted_valid md fuel kt Hturns Hkt Hurl [Elem "g" attrs ns] W ltac:(discriminate) ltac:(cbn; rewrite app_nil_r; exact Ha)).
  rewrite (accepted_valid md fuel kt Hturns Hkt Hurl [Elem "g" attrs []] eq_refl ltac:(discriminate) ltac:(cbn; constructor; [exact A1|constructor])), (accepted_valid md fuel kt Hturns Hkt Hurl ns Hw H1 A2).
  cbn [flat_map placed app]. rewrite app_nil_r, !Forall_cons_iff. cbn [orb String.eqb is_grad_name]. change (is_grad_name "g") with false. intuition.
Qed.
End Reshape.

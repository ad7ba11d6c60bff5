(** * ProofsEnd2: acyclic references, and the theorems about whole documents *)
From Coq Require Import Lia.
From Verif Require ProofsAngle.
From Verif Require Export ProofsEnd.
Local Open Scope go_scope.

(** ** A rank for acyclic references *)
Section Rank.
Context (refs : list (string * string)) (Hac : acyclic refs).
Definition target (h : string) : list string := match h with String a x => if Ascii.eqb a "#" then [x] else [] | _ => [] end.
Definition succs (g : string) : list string := flat_map (fun r => if String.eqb (fst r) g then target (snd r) else []) refs.
Definition targets : list string := flat_map (fun r => target (snd r)) refs.
Lemma target_in h x : List.In x (target h) <-> h = String "#" x.
Proof.
  destruct h as [|a h]; cbn; [split; [tauto|discriminate]|]. destruct (Ascii.eqb_spec a "#") as [->|N]; cbn.
  - split; [intros [->|[]]; reflexivity|intros H; injection H as ->; now left].
  - split; [tauto|intros H; injection H as -> _; congruence].
Qed.
Lemma succs_in g x : List.In x (succs g) <-> List.In (g, String "#" x) refs.
Proof.
  unfold succs. rewrite in_flat_map. split.
  - intros ([g' h] & Hin & Hx). cbn in Hx. destruct (String.eqb_spec g' g) as [->|]; [|contradiction]. apply target_in in Hx. now subst.
  - intros H. exists (g, String "#" x). split; [exact H|]. cbn. rewrite String.eqb_refl. now left.
Qed.
Lemma succs_targets g x : List.In x (succs g) -> List.In x targets.
Proof. rewrite succs_in. intros H. apply in_flat_map. exists (g, String "#" x). split; [exact H|now left]. Qed.
Lemma target_length h : List.length (target h) <= 1.
Proof. unfold target. destruct h as [|a h]; [cbn; lia|destruct (Ascii.eqb a "#"); cbn; lia]. Qed.
Lemma targets_length : List.length targets <= List.length refs.
Proof.
  unfold targets. clear Hac. induction refs as [|[g h] l IH]; cbn; [lia|]. rewrite app_length. pose proof (target_length h). lia.
Qed.
(** chains of references *)
Fixpoint chain (g : string) (l : list string) : Prop := match l with [] => True | x :: r => List.In x (succs g) /\ chain x r end.
Lemma chain_leads l : forall g x, chain g l -> List.In x l -> leads refs g x.
Proof.
  induction l as [|y l IH]; intros g x H Hin; [destruct Hin|]. destruct H as [H1 H2]. apply succs_in in H1. destruct Hin as [->|Hin]; [now constructor|].
  eapply leads_more; [exact H1|]. apply IH; assumption.
Qed.
Lemma chain_nodup l : forall g, chain g l -> NoDup l.
Proof.
  induction l as [|y l IH]; intros g H; [constructor|]. destruct H as [H1 H2]. constructor; [|apply (IH y), H2].
  intros Hin. apply (Hac y). apply (chain_leads l); assumption.
Qed.
Lemma chain_incl l : forall g, chain g l -> incl l targets.
Proof.
  induction l as [|y l IH]; intros g H x Hin; [destruct Hin|]. destruct H as [H1 H2]. destruct Hin as [<-|Hin]; [apply (succs_targets g), H1|apply (IH y H2), Hin].
Qed.
Lemma chain_short g l : chain g l -> List.length l <= List.length refs.
Proof. intros H. etransitivity; [|apply targets_length]. apply NoDup_incl_length; [apply (chain_nodup l g H)|apply (chain_incl l g H)]. Qed.
Fixpoint longest (n : nat) (g : string) : nat :=
  match n with O => O | S n => fold_right Nat.max 0 (map (fun x => S (longest n x)) (succs g)) end.
Lemma fold_max_cases (l : list nat) : fold_right Nat.max 0 l = 0 \/ List.In (fold_right Nat.max 0 l) l.
Proof.
  induction l as [|a l IH]; [now left|]. cbn. destruct (Nat.max_dec a (fold_right Nat.max 0 l)) as [->| ->]; [right; now left|].
  destruct IH as [->|IH]; [now left|right; now right].
Qed.
Lemma fold_max_le (l : list nat) a : List.In a l -> a <= fold_right Nat.max 0 l.
Proof. induction l as [|b l IH]; intros H; [destruct H|]. cbn. destruct H as [->|H]; [lia|]. specialize (IH H). lia. Qed.
Lemma longest_chain n : forall g, exists l, chain g l /\ List.length l = longest n g.
Proof.
  induction n as [|n IH]; intros g; [exists []; split; reflexivity|]. cbn [longest].
  destruct (fold_max_cases (map (fun x => S (longest n x)) (succs g))) as [->|H]; [exists []; split; reflexivity|].
  apply in_map_iff in H as (x & <- & Hx). destruct (IH x) as (l & Hl & Hlen). exists (x :: l). split; [split; assumption|cbn; lia].
Qed.
Lemma chain_longest n : forall g l, chain g l -> List.length l <= n -> List.length l <= longest n g.
Proof.
  induction n as [|n IH]; intros g l Hl Hn; [exact Hn|]. destruct l as [|x l]; [cbn; lia|]. destruct Hl as [H1 H2]. cbn [List.length longest] in *.
  etransitivity; [|apply fold_max_le, in_map_iff; exists x; split; [reflexivity|exact H1]]. apply le_n_S. apply IH; [exact H2|lia].
Qed.
Definition height : string -> nat := longest (List.length refs).
Lemma height_bound g : height g <= List.length refs.
Proof. unfold height. destruct (longest_chain (List.length refs) g) as (l & H1 & <-). apply (chain_short g), H1. Qed.
Lemma height_descending : descending height refs.
Proof.
  intros g x Hin. unfold height. destruct (longest_chain (List.length refs) x) as (l & H1 & <-).
  assert (Hc : chain g (x :: l)) by (split; [now apply succs_in|exact H1]). apply (chain_longest _ g (x :: l) Hc). apply (chain_short g), Hc.
Qed.
End Rank.

(** ** Whole documents *)
Section Docs.
Context {E : Env}.
Lemma parse_outcome (fuel : nat) mode (toks rest : list token) tm (P : cursor E -> Prop) (Wp : outcome unit -> cursor E -> Prop) :
  tri P (mapM (stepToken fuel) (toks ++ rest)) (fun _ _ => True) Wp -> P (cursor0 mode) ->
  (parse (E := E) fuel mode toks tm = PNoFuel -> exists c, Wp NoFuel c) /\ (parse (E := E) fuel mode toks tm = PPanic -> exists c, Wp Panic c).
Proof.
  intros H H0. specialize (H _ H0). rewrite mapM_app in H. unfold parse. unfold bind in H.
  destruct (mapM (stepToken fuel) toks (cursor0 mode)) as [c [a|e| |]]; (split; [intros Hp|intros Hp]); try discriminate; try (destruct tm; [destruct (seenTag toks)|]; discriminate); exists c; exact H.
Qed.
Theorem parse_ends (k fuel : nat) mode (ns : list node) (toks rest : list token) tm :
  turns (E := E) k -> forallb (orderly false) ns = true -> acyclic (flat_map doc_refs ns) ->
  flat_map tokens ns = toks ++ rest -> List.length (flat_map doc_refs ns) + k + 2 <= fuel ->
  parse (E := E) fuel mode toks tm <> PNoFuel.
Proof.
  intros Ht Ho Ha Hp Hf Hn. set (refs := flat_map doc_refs ns) in *.
  assert (Hr : true = true -> forall x, height refs x + k + 1 < fuel). { intros _ x. pose proof (height_bound refs Ha x). lia. }
  pose proof (nodes_out true false (height refs) k fuel (fun _ => Ht) Hr ns 0) as H.
  assert (Hok : out_ok (E := E) true false (height refs) ns).
  { split; [exact Ho|]. split; [intros _; apply height_descending, Ha|]. split; discriminate. }
  specialize (H Hok). rewrite Hp in H.
  assert (H2 : tri (sd (E := E) true false (height refs) false false "" 0 0) (mapM (stepToken fuel) (toks ++ rest)) (fun _ _ => True) (W (E := E) true false)) by (eapply tri_weaken; [exact H|auto..]).
  destruct (parse_outcome fuel mode toks rest tm _ _ H2 (start_state true false (height refs) mode)) as [Hx _]. destruct (Hx Hn) as (c & Hw & _). now apply Hw.
Qed.
Theorem parse_calm (fuel : nat) mode (ns : list node) (toks rest : list token) tm :
  forallb (orderly false) ns = true -> forallb whole_defs ns = true -> harmless_doc E ns ->
  flat_map tokens ns = toks ++ rest -> parse (E := E) fuel mode toks tm <> PPanic.
Proof.
  intros Ho Hw Hh Hp Hn.
  assert (Hl : false = true -> turns (E := E) 0) by discriminate.
  assert (Hr : false = true -> forall x : string, 0 + 0 + 1 < fuel) by discriminate.
  pose proof (nodes_out false true (fun _ => 0) 0 fuel Hl Hr ns 0) as H.
  assert (Hok : out_ok (E := E) false true (fun _ => 0) ns).
  { split; [exact Ho|]. split; [discriminate|]. split; [intros _; exact Hw|]. intros _. exact Hh. }
  specialize (H Hok). rewrite Hp in H.
  assert (H2 : tri (sd (E := E) false true (fun _ => 0) false false "" 0 0) (mapM (stepToken fuel) (toks ++ rest)) (fun _ _ => True) (W (E := E) false true)) by (eapply tri_weaken; [exact H|auto..]).
  destruct (parse_outcome fuel mode toks rest tm _ _ H2 (start_state false true (fun _ => 0) mode)) as [_ Hx]. destruct (Hx Hn) as (c & _ & Hw2). destruct (Hw2 eq_refl) as [Hw3 _]. now apply Hw3.
Qed.
End Docs.
Theorem parse_ends_F64 O (fuel : nat) mode (ns : list node) (toks rest : list token) tm :
  angles O -> forallb (orderly false) ns = true -> acyclic (flat_map doc_refs ns) ->
  flat_map tokens ns = toks ++ rest -> List.length (flat_map doc_refs ns) + 3 <= fuel ->
  parse (E := F64 O) fuel mode toks tm <> PNoFuel.
Proof. intros Ha Ho Hac Ht Hf. apply (parse_ends 1 fuel mode ns toks rest tm (ProofsAngle.turns_F64 O Ha) Ho Hac Ht). lia. Qed.

(** * ProofsPrefix: documents cut off anywhere (C77) *)
From Coq Require Import ZArith Lia.
From Verif Require Import SpecPrefix.
From Verif Require Import ProofsTok ProofsFuel ProofsValid4.
From Verif Require Export ProofsPanic2.
From Verif Require Import ProofsLocal ProofsValid SpecValid SpecPrefix.
Local Open Scope go_scope.
Local Open Scope nat_scope.

Lemma begun_app a b : begun (a ++ b) = begun a + begun b.
Proof. unfold begun. rewrite filter_app, app_length. reflexivity. Qed.
Lemma begun_items : forall nd f, begun (tokens nd) = List.length (ProofsLocal.items f nd).
Proof.
  fix IH 1. intros [name attrs kids|s|] f; [|reflexivity..]. cbn [tokens ProofsLocal.items]. change (TStart name attrs :: ?x) with ([TStart name attrs] ++ x)%list. rewrite !begun_app. cbn [List.length].
  change (begun [TStart name attrs]) with 1. change (begun [TEnd name]) with 0. rewrite Nat.add_0_r. cbn [Nat.add]. f_equal.
  generalize (inner f name). intros g. induction kids as [|x kids IHk]; [reflexivity|]. cbn [flat_map]. rewrite begun_app, app_length, IHk, (IH x g). reflexivity.
Qed.

Section Prefix.
Context {E : Env} (md : errorMode) (fuel kt : nat) (Hturns : turns (E := E) kt) (Hkt : kt <= fuel) (Hurl : lower_url E).
Notation cursor := (cursor E).
Notation J := (ProofsLocal.J (E := E) md).
Notation run := (ProofsLocal.run (E := E) md fuel).
Notation items := ProofsLocal.items.

Definition prefix_runs (its : list item) (toks : list token) (l : list string) (c : cursor) : Prop :=
  exists d c' o, run (firstn (begun toks) its) o d /\ mapM (stepToken fuel) toks c = (c', o) /\ pc_log (c_pc c') = l ++ d.
Definition node_prefix (nd : node) : Prop := forall f, Forall okit (items f nd) -> forall n l c toks rest, J f n l c -> tokens nd = toks ++ rest -> prefix_runs (items f nd) toks l c.
Lemma forest_prefix ns : Forall node_prefix ns -> forall f, Forall okit (flat_map (items f) ns) -> forall n l c toks rest, J f n l c -> flat_map tokens ns = toks ++ rest -> prefix_runs (flat_map (items f) ns) toks l c.
Proof.
  intros HF f. induction HF as [|x ns Hx _ IH]; cbn [flat_map]; intros Hf n l c toks rest H Ht.
  - symmetry in Ht. apply app_eq_nil in Ht as [-> ->]. exists [], c, (Ret tt). split; [constructor|]. split; [reflexivity|]. rewrite app_nil_r. exact (j_log _ _ _ _ _ H).
  - apply Forall_app in Hf as [F1 F2]. apply app_eq_app in Ht as (t & [[Ht ->]|[-> Ht]]).
    + destruct (Hx f F1 n l c toks t H Ht) as (d & c' & o & R & M & L). exists d, c', o. split; [|auto].
      rewrite firstn_app. pose proof (f_equal begun Ht) as B. rewrite begun_app, (begun_items x f) in B.
      replace (begun toks - List.length (items f x)) with 0 by lia. cbn [firstn]. rewrite app_nil_r. exact R.
    + destruct (all_runs md fuel kt Hturns Hkt Hurl x f F1 n l c H) as (d & c1 & o & R1 & M1 & L1 & J1).
      unfold prefix_runs. rewrite begun_app, (begun_items x f), firstn_app_2. 
      destruct o as [[]|e| |]; [|exists d, c1; eexists; (split; [apply run_stop; [exact R1|discriminate]|]); (split; [rewrite mapM_cat; unfold bind; rewrite M1; reflexivity|exact L1])..].
      destruct (IH F2 n _ c1 t rest (J1 eq_refl) Ht) as (d2 & c2 & o2 & R2 & M2 & L2). exists (d ++ d2), c2, o2. rewrite app_assoc.
      split; [eapply run_app; eassumption|]. split; [rewrite mapM_cat; unfold bind; rewrite M1; exact M2|exact L2].
Qed.
Lemma all_prefix : forall nd, node_prefix nd.
Proof.
  fix IH 1. intros [name attrs kids|s|].
  - assert (K : Forall node_prefix kids) by (induction kids as [|x kids IHk]; constructor; [apply IH|exact IHk]).
    clear IH. intros f Hf n l c toks rest H Ht. pose proof (all_runs md fuel kt Hturns Hkt Hurl (Elem name attrs kids) f Hf n l c H) as W.
    destruct toks as [|t toks].
    { exists [], c, (Ret tt). split; [constructor|]. split; [reflexivity|]. rewrite app_nil_r. exact (j_log _ _ _ _ _ H). }
    pose proof Ht as Ht0. cbn [tokens app] in Ht. injection Ht as <- Ht. apply app_eq_app in Ht as (t & [[Ht ->]|[-> Ht]]).
    + cbn [items] in Hf |- *. inversion Hf as [|? ? F1 F2]; subst. unfold prefix_runs.
      change (TStart name attrs :: toks) with ([TStart name attrs] ++ toks)%list. rewrite begun_app. change (begun [TStart name attrs]) with 1. cbn [Nat.add firstn app mapM].
      destruct (start_told md fuel kt Hturns Hkt Hurl (f, (name, attrs)) n l c F1 H) as (d & c1 & o & T & M1 & L1 & J1). cbn [fst snd] in M1, J1. unfold bind at 1. rewrite M1.
      destruct o as [[]|e| |]; [|exists d, c1; eexists; (split; [apply run_bad; [exact T|discriminate]|]); (split; [reflexivity|exact L1])..].
      destruct (forest_prefix kids K _ F2 (S n) _ c1 toks t (J1 eq_refl) Ht) as (d2 & c2 & o2 & R2 & M2 & L2). exists (d ++ d2), c2, o2. rewrite app_assoc.
      split; [apply run_ok; assumption|]. split; [exact M2|exact L2].
    + destruct t as [|x t].
      * cbn [items] in Hf |- *. inversion Hf as [|? ? F1 F2]; subst. unfold prefix_runs. rewrite app_nil_r.
        change (TStart name attrs :: flat_map tokens kids) with ([TStart name attrs] ++ flat_map tokens kids)%list. rewrite begun_app. change (begun [TStart name attrs]) with 1. cbn [Nat.add firstn app mapM].
        destruct (start_told md fuel kt Hturns Hkt Hurl (f, (name, attrs)) n l c F1 H) as (d & c1 & o & T & M1 & L1 & J1). cbn [fst snd] in M1, J1. unfold bind at 1. rewrite M1.
        destruct o as [[]|e| |]; [|exists d, c1; eexists; (split; [apply run_bad; [exact T|discriminate]|]); (split; [reflexivity|exact L1])..].
        destruct (forest_prefix kids K _ F2 (S n) _ c1 (flat_map tokens kids) [] (J1 eq_refl) ltac:(symmetry; apply app_nil_r)) as (d2 & c2 & o2 & R2 & M2 & L2). exists (d ++ d2), c2, o2. rewrite app_assoc.
        split; [apply run_ok; assumption|]. split; [exact M2|exact L2].
      * assert (rest = [] /\ t = []) as [-> ->]. { injection Ht as _ Ht. symmetry in Ht. apply app_eq_nil in Ht. tauto. }
        rewrite app_nil_r in Ht0. rewrite <- Ht0. destruct W as (d & c' & o & R & M & L & _). exists d, c', o. rewrite (begun_items _ f), firstn_all. auto.
  - intros f Hf n l c toks rest H Ht. cbn [tokens] in Ht. destruct toks as [|t toks].
    { exists [], c, (Ret tt). split; [constructor|]. split; [reflexivity|]. rewrite app_nil_r. exact (j_log _ _ _ _ _ H). }
    injection Ht as <- Ht. symmetry in Ht. apply app_eq_nil in Ht as [-> ->]. destruct (all_runs md fuel kt Hturns Hkt Hurl (Chars s) f Hf n l c H) as (d & c' & o & R & M & L & _). exists d, c', o. auto.
  - intros f Hf n l c toks rest H Ht. cbn [tokens] in Ht. destruct toks as [|t toks].
    { exists [], c, (Ret tt). split; [constructor|]. split; [reflexivity|]. rewrite app_nil_r. exact (j_log _ _ _ _ _ H). }
    injection Ht as <- Ht. symmetry in Ht. apply app_eq_nil in Ht as [-> ->]. destruct (all_runs md fuel kt Hturns Hkt Hurl Misc f Hf n l c H) as (d & c' & o & R & M & L & _). exists d, c', o. auto.
Qed.

(** ** What Parse does with it *)
Lemma begun_okit ns toks : forallb (well_nested false false) ns = true -> Forall ascii_attrs (flat_map elements_of ns) ->
  elements_begun toks ns = firstn (begun toks) (flat_map (items out) ns) /\ Forall okit (elements_begun toks ns) /\ Forall (fun it : item => asciis (snd (snd it))) (elements_begun toks ns).
Proof.
  intros Hw Ha. apply wn_doc in Hw.
  assert (Q : flat_map (placed false false) ns = flat_map (items out) ns) by (apply flat_map_ext; intros; apply placed_items).
  assert (A : Forall (fun it : item => asciis (snd (snd it))) (flat_map (placed false false) ns)).
  { assert (M : flat_map elements_of ns = map snd (flat_map (placed false false) ns)).
    { clear. induction ns as [|x ns IH]; [reflexivity|]. cbn [flat_map]. rewrite map_app, placed_elements, IH. reflexivity. }
    rewrite M in Ha. rewrite Forall_map in Ha. exact Ha. }
  unfold elements_begun. split; [rewrite Q; reflexivity|]. rewrite Q in *.
  split; [rewrite <- (firstn_skipn (begun toks)) in Hw; apply Forall_app in Hw; apply Hw|rewrite <- (firstn_skipn (begun toks)) in A; apply Forall_app in A; apply A].
Qed.
Lemma prefix_run ns toks rest : forallb (well_nested false false) ns = true -> Forall ascii_attrs (flat_map elements_of ns) -> flat_map tokens ns = toks ++ rest ->
  exists d (c : cursor) o, run (elements_begun toks ns) o d /\ mapM (stepToken fuel) toks (cursor0 md) = (c, o) /\ pc_log (c_pc c) = d.
Proof.
  intros Hw Ha Ht. destruct (begun_okit ns toks Hw Ha) as (-> & _). apply wn_doc in Hw.
  destruct (forest_prefix ns (proj2 (Forall_forall _ _) (fun nd _ => all_prefix nd)) out Hw 0 [] _ toks rest (J_start md) Ht) as (d & c & o & R & M & L). exists d, c, o. auto.
Qed.
Lemma begun_good ns toks : forallb (well_nested false false) ns = true -> Forall ascii_attrs (flat_map elements_of ns) ->
  (Forall (ProofsLocal.good (E := E) md fuel) (elements_begun toks ns) <-> Forall (valid_at E md) (elements_begun toks ns)).
Proof.
  intros Hw Ha. destruct (begun_okit ns toks Hw Ha) as (_ & O & A). rewrite Forall_forall in O, A. rewrite !Forall_forall. split; intros H it Hi; apply (good_valid md fuel kt Hturns Hkt Hurl it (O it Hi) (A it Hi)), H, Hi.
Qed.
Theorem prefix_panics ns toks rest tm : forallb (well_nested false false) ns = true -> Forall ascii_attrs (flat_map elements_of ns) -> flat_map tokens ns = toks ++ rest ->
  (parse (E := E) fuel md toks tm = PPanic <-> first_wrong (valid_at E md) (panic_at E md) (elements_begun toks ns)).
Proof.
  intros Hw Ha Ht. rewrite <- fw_iff. transitivity (exists d, run (elements_begun toks ns) Panic d).
  - destruct (prefix_run ns toks rest Hw Ha Ht) as (d & c & o & R & M & _). unfold parse. rewrite M. split.
    + intros H. destruct o as [u|e| |]; [destruct tm; [destruct (seenTag toks)|]; discriminate|discriminate|exists d; exact R|discriminate].
    + intros (d' & R'). destruct (run_fun _ _ _ _ _ R _ _ R') as [-> _]. reflexivity.
  - rewrite (run_panic md fuel). apply fw_ext. destruct (begun_okit ns toks Hw Ha) as (_ & O & A). rewrite Forall_forall in O, A.
    intros it Hi. split; [apply (good_valid md fuel kt Hturns Hkt Hurl it (O it Hi) (A it Hi))|exact (told_panic md fuel kt Hturns Hkt Hurl it (O it Hi) (A it Hi))].
Qed.
Theorem prefix_malformed ns toks rest : forallb (well_nested false false) ns = true -> Forall ascii_attrs (flat_map elements_of ns) -> flat_map tokens ns = toks ++ rest ->
  ((forall s, exists v log, parse (E := E) fuel md toks (TermErr s) = PSvg v (Some (ErrXML s)) log) <-> Forall (valid_at E md) (elements_begun toks ns)).
Proof.
  intros Hw Ha Ht. rewrite <- (begun_good ns toks Hw Ha), <- (run_good md fuel). destruct (prefix_run ns toks rest Hw Ha Ht) as (d & c & o & R & M & _). unfold parse. rewrite M. split.
  - intros H. destruct o as [[]|e| |].
    + exists d. exact R.
    + destruct (H "a"%string) as (v & log & K), (H "b"%string) as (v' & log' & K'). congruence.
    + destruct (H ""%string) as (v & log & K). discriminate.
    + destruct (H ""%string) as (v & log & K). discriminate.
  - intros (d' & R') s. destruct (run_fun _ _ _ _ _ R _ _ R') as [-> _]. eexists. eexists. reflexivity.
Qed.
Theorem prefix_decides ns toks rest tm more tm' : forallb (well_nested false false) ns = true -> Forall ascii_attrs (flat_map elements_of ns) -> flat_map tokens ns = toks ++ rest ->
  ~ Forall (valid_at E md) (elements_begun toks ns) -> parse (E := E) fuel md (toks ++ more) tm' = parse fuel md toks tm.
Proof.
  intros Hw Ha Ht Hv. destruct (prefix_run ns toks rest Hw Ha Ht) as (d & c & o & R & M & _). unfold parse. rewrite mapM_cat. unfold bind. rewrite M.
  destruct o as [[]|e| |]; [|reflexivity..]. exfalso. apply Hv, (begun_good ns toks Hw Ha), (run_good md fuel). exists d. exact R.
Qed.
Theorem prefix_answers ns toks rest tm : forallb (well_nested false false) ns = true -> Forall ascii_attrs (flat_map elements_of ns) -> flat_map tokens ns = toks ++ rest ->
  ~ Forall (valid_at E md) (elements_begun toks ns) -> ~ first_wrong (valid_at E md) (panic_at E md) (elements_begun toks ns) ->
  exists v e log, parse (E := E) fuel md toks tm = PSvg v (Some e) log.
Proof.
  intros Hw Ha Ht Hv Hp. rewrite <- (prefix_panics ns toks rest tm Hw Ha Ht) in Hp. destruct (prefix_run ns toks rest Hw Ha Ht) as (d & c & o & R & M & _). revert Hp. unfold parse. rewrite M.
  pose proof (run_ends md fuel kt Hturns Hkt Hurl _ _ _ (proj1 (proj2 (begun_okit ns toks Hw Ha))) R) as N.
  destruct o as [[]|e| |]; intros Hp; [|eexists; eexists; eexists; reflexivity|congruence|congruence].
  exfalso. apply Hv, (begun_good ns toks Hw Ha), (run_good md fuel). exists d. exact R.
Qed.
End Prefix.

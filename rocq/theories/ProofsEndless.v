(** * ProofsEndless: when the drawing of masks ends *)
From Coq Require Import Lia.
From Verif Require Export ProofsDraw2 SpecEndless.
Local Open Scope go_scope.

Section Safe.
Context {E : Env} (s : svg E).
Lemma to_cycle_step a : to_cycle s a -> exists c, mask_ref s a c /\ to_cycle s c.
Proof.
  assert (K : forall x y, mask_leads s x y -> exists c, mask_ref s x c /\ (c = y \/ mask_leads s c y)) by (intros x y []; eauto).
  intros (b & [<-|H] & Hb).
  - destruct (K _ _ Hb) as (c & Hr & Hc). exists c. split; [exact Hr|]. exists a. auto.
  - destruct (K _ _ H) as (c & Hr & Hc). exists c. split; [exact Hr|]. exists b. auto.
Qed.
Lemma to_cycle_back a b : mask_ref s a b -> to_cycle s b -> to_cycle s a.
Proof. intros Hr (c & [<-|H] & Hc); [exists b|exists c]; (split; [right|exact Hc]); [now constructor|eapply ml_more; eauto]. Qed.
Context (Hc : forall p, has_path s p -> complete_style (sp_style p)).
Lemma cycle_hangs : forall fuel sp m o ids a, path_masks s sp = ids ++ [a] -> to_cycle s a -> ggDrawTransformed fuel s sp m o = NoFuel.
Proof.
  induction fuel as [|fuel IH]; intros sp m o ids a Hm Ha; [reflexivity|]. rewrite gg_unfold, Hm, rev_unit.
  destruct (to_cycle_step a Ha) as (c & (mk & p & ids' & Hg & Hp & Hm') & Hcy). rewrite Hg.
  destruct (omap_cases (fun q => ggDrawTransformed fuel s q m (fnum E 1)) (mk_paths mk)) as [[r Hr]|[Hr _]].
  - intros q Hq. apply gg_calm; [exact Hc|]. apply Hc. right. eauto.
  - exfalso. destruct (omap_ret _ _ _ Hr) as (rs & _ & Hf). clear - Hf Hp IH Hm' Hcy.
    induction Hf as [|x y l l' Hxy _ IHf]; [destruct Hp|]. destruct Hp as [<-|Hp]; [|auto]. rewrite (IH _ _ _ _ _ Hm' Hcy) in Hxy. discriminate.
  - rewrite Hr. reflexivity.
Qed.
Lemma mchain_nodup' a l : ~ to_cycle s a -> mchain s a l -> NoDup (a :: l).
Proof.
  intros Ha H. revert Ha. induction H as [a|a b l Hr He H IH]; intros Ha; [repeat constructor; intros []|]. constructor.
  - intros Hin. apply Ha. exists a. split; [now left|]. apply (mchain_leads s a (b :: l)); [now constructor|exact Hin].
  - apply IH. intros Hb. apply Ha. eapply to_cycle_back; eauto.
Qed.
Lemma no_cycle_ends fuel sp m o : (forall ids a, path_masks s sp = ids ++ [a] -> ~ to_cycle s a) -> List.length (sv_masks s) < fuel -> complete_style (sp_style sp) ->
  exists calls, ggDrawTransformed fuel s sp m o = Ret calls.
Proof.
  intros Ha Hf Hs. destruct fuel as [|fuel]; [lia|]. destruct (gg_outcome s Hc fuel sp m o Hs) as [H|[_ (ids & a & l & mk & H1 & H2 & H3 & H4)]]; [exact H|exfalso].
  assert (Hl : List.length (a :: l) <= List.length (map fst (sv_masks s))).
  { apply NoDup_incl_length; [apply mchain_nodup'; eauto|]. intros b [<-|Hb]; [now apply mget_key with mk|]. now apply (mchain_keys s a l). }
  rewrite map_length in Hl. cbn in Hl. lia.
Qed.
Theorem endless_hangs opts : endless s -> forall fuel, ggDrawSvg fuel s opts = NoFuel.
Proof.
  intros (p & ids & a & Hp & Hm & Ha) fuel. destruct (gg_draw_calm s Hc fuel opts) as [[r Hr]|Hr]; [exfalso|exact Hr].
  unfold ggDrawSvg in Hr. destruct (omap_ret _ _ _ Hr) as (rs & _ & Hf). clear Hr.
  induction Hf as [|x y l l' Hxy _ IHf]; [destruct Hp|]. destruct Hp as [<-|Hp]; [|auto]. rewrite (cycle_hangs _ _ _ _ _ _ Hm Ha) in Hxy. discriminate.
Qed.
Theorem not_endless_ends opts : ~ endless s -> forall fuel, List.length (sv_masks s) < fuel -> exists calls, ggDrawSvg fuel s opts = Ret calls.
Proof.
  intros Hn fuel Hf. unfold ggDrawSvg.
  assert (K : forall p, List.In p (sv_paths s) -> exists calls, ggDrawTransformed fuel s p (mMult (st_transform (sp_style p)) (ro_target (options s opts))) (ro_opacity (options s opts)) = Ret calls).
  { intros p Hp. apply no_cycle_ends; [|exact Hf|apply Hc; now left]. intros ids a Hm Ha. apply Hn. exists p, ids, a. auto. }
  match goal with |- context [omap ?f ?l] => destruct (omap_cases f l) as [H|[_ (p & Hp & H)]] end; [intros p Hp; left; now apply K|exact H|].
  destruct (K p Hp) as [r Hr]. congruence.
Qed.
End Safe.
Section Parsed.
Context {E : Env}.
Theorem gg_parsed_ends fuel mode toks tm (s : svg E) err log opts : parse fuel mode toks tm = PSvg s err log ->
  (endless s -> forall fuel', ggDrawSvg fuel' s opts = NoFuel)
  /\ (~ endless s -> forall fuel', List.length (sv_masks s) < fuel' -> exists calls, ggDrawSvg fuel' s opts = Ret calls).
Proof.
  intros H. assert (Hc : forall p, has_path s p -> complete_style (sp_style p)) by (intros p; apply (gradients_complete _ _ _ _ _ _ _ _ H)).
  split; [now apply endless_hangs|now apply not_endless_ends].
Qed.
End Parsed.

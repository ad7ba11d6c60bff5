(** * ProofsSize4: a chain of definitions that doubles what is drawn *)
From Coq Require Import Lia.
From Verif Require Import ExTree ProofsRoot.
From Verif Require Export SpecSize.
Local Open Scope nat_scope.

(** ** Powers *)
Lemma pow2_gt n : n < 2 ^ n. Proof. induction n; cbn; lia. Qed.
Lemma beats C e : exists n, C * (n + 1) ^ e < 2 ^ n.
Proof.
  set (a := 2 * e + C + 2). set (t := 2 * a). exists (2 ^ t - 1). assert (H1 : 1 <= 2 ^ t) by (pose proof (pow2_gt t); lia). replace (2 ^ t - 1 + 1) with (2 ^ t) by lia.
  apply Nat.le_lt_trans with (2 ^ C * 2 ^ (t * e)).
  - rewrite Nat.pow_mul_r. apply Nat.mul_le_mono_r. pose proof (pow2_gt C). lia.
  - rewrite <- Nat.pow_add_r. apply Nat.pow_lt_mono_r; [lia|]. assert (H : (a + 1) * (a + 1) <= 2 ^ t).
    { unfold t. replace (2 * a) with (a + a) by lia. rewrite Nat.pow_add_r. pose proof (pow2_gt a). apply Nat.mul_le_mono; lia. }
    assert (H2 : a * (2 * e) <= a * a) by (apply Nat.mul_le_mono_l; unfold a; lia). unfold t at 1. rewrite <- Nat.mul_assoc. rewrite (Nat.mul_comm 2 (a * e)), <- (Nat.mul_assoc a), (Nat.mul_comm e 2).
    rewrite Nat.mul_add_distr_r, Nat.mul_add_distr_l in H. assert (C + 2 <= a) by (unfold a; lia). lia.
Qed.

(** ** Sizes *)
Lemma link_len k : String.length (link k) = S k.
Proof. unfold link. assert (H : forall n, String.length (string_of_list_ascii (repeat "a"%char n)) = n) by (induction n; cbn; lia). apply H. Qed.
Lemma link_inj j k : link j = link k -> j = k.
Proof. intros H. apply (f_equal String.length) in H. rewrite !link_len in H. lia. Qed.
Lemma doc_size_app a b : doc_size (a ++ b) = doc_size a + doc_size b.
Proof. unfold doc_size. rewrite map_app, list_sum_app. reflexivity. Qed.
Lemma twice_size k : doc_size (flat_map tokens (twice k)) = 3 * k + 35.
Proof. unfold doc_size, twice. cbn -[link Nat.mul]. rewrite !link_len. lia. Qed.
Lemma levels_size n : forall k, doc_size (flat_map tokens (flat_map twice (seq k n))) <= n * (3 * (k + n) + 35).
Proof.
  induction n as [|n IH]; intros k; cbn [seq flat_map]; [cbn; lia|]. rewrite flat_map_app, doc_size_app, twice_size. specialize (IH (S k)).
  replace (S k + n) with (k + S n) in IH by lia. cbn [Nat.mul] in *. lia.
Qed.
Lemma app_len a b : String.length (a ++ b) = String.length a + String.length b. Proof. induction a; cbn; congruence. Qed.
Lemma doc_size_cons t l : doc_size (t :: l) = token_size t + doc_size l. Proof. reflexivity. Qed.
Lemma doubling_size n : doc_size (flat_map tokens (doubling n)) <= 100 * (n + 1) ^ 2.
Proof.
  assert (H : doc_size (flat_map tokens (doubling n)) = doc_size (flat_map tokens (flat_map twice (seq 0 n))) + (n + 47)).
  { unfold doubling. cbn [flat_map tokens app]. repeat first [rewrite app_nil_r|rewrite doc_size_cons|rewrite doc_size_app]. change (doc_size []) with 0. unfold token_size, attrs_size, attr_size. cbn [map a_name a_val list_sum fold_right]. rewrite !app_len, !link_len. cbn [String.length]. lia. }
  rewrite H. pose proof (levels_size n 0). cbn [Nat.pow]. nia.
Qed.

(** ** What is drawn *)
Section Drawn.
Context {E : Env}.
Notation F := (F E).
Definition body (k : nat) : list dtree :=
  match k with
  | O => [DElem "line" [mkAttr "id" (link 0)]]
  | S j => [DElem "use" [mkAttr "id" (link (S j)); mkAttr "href" ("#" ++ link j)]; DElem "use" [mkAttr "href" ("#" ++ link j)]]
  end%string.
Definition chain (k : nat) (ds : string -> option (list dtree)) : Prop := forall j, j <= k -> ds (link j) = Some (body j).
Lemma set_same {A} f k (a : A) : set f k a k = Some a. Proof. unfold set. rewrite String.eqb_refl. reflexivity. Qed.
Lemma set_other {A} f k (a : A) k' : k' <> k -> set f k a k' = f k'. Proof. intros H. unfold set. apply String.eqb_neq in H. rewrite H. reflexivity. Qed.
Lemma st_id vb grads par k : styled E vb grads par [mkAttr "id" (link k)] par. Proof. plain_style. Qed.
Lemma st_href vb grads par s : styled E vb grads par [mkAttr "href" s] par. Proof. plain_style. Qed.
Lemma st_both vb grads par k s : styled E vb grads par [mkAttr "id" (link k); mkAttr "href" s] par. Proof. plain_style. Qed.
Lemma link_some k : link k <> ""%string. Proof. discriminate. Qed.
Lemma chain_next vb st n : forall k w, chain k (w_defs E w) ->
  exists ds, def_kids E vb st (Some (link k)) (flat_map twice (seq k n)) w (with_defs E ds w) /\ chain (k + n) ds.
Proof.
  induction n as [|n IH]; intros k w Hw; cbn [seq flat_map].
  - exists (w_defs E w). split; [|rewrite Nat.add_0_r; exact Hw]. replace (with_defs E (w_defs E w) w) with w by (destruct w; reflexivity). apply dk_nil.
  - set (t1 := DElem "use" [mkAttr "id" (link (S k)); mkAttr "href" ("#" ++ link k)]%string). set (t2 := DElem "use" [mkAttr "href" ("#" ++ link k)]%string).
    set (w1 := with_defs E (set (w_defs E w) (link (S k)) [t1]) w). set (w2 := with_defs E (set (w_defs E w1) (link (S k)) ([t1] ++ [t2])) w1).
    assert (H2 : chain (S k) (w_defs E w2)).
    { intros j Hj. unfold w2, w1. cbn [w_defs with_defs]. destruct (Nat.eq_dec j (S k)) as [->|Hne]; [apply set_same|].
      rewrite !set_other by (intros Hl; apply Hne, link_inj, Hl). apply Hw. lia. }
    destruct (IH (S k) w2 H2) as (ds & H3 & H4). exists ds. split; [|replace (k + S n) with (S k + n) by lia; exact H4].
    unfold twice. cbn [app]. eapply dk_new; [eapply dn_elem; [apply st_both|cbn; auto|reflexivity]|left; apply link_some|].
    eapply dk_more; [eapply dn_elem; [apply st_href|cbn; auto|reflexivity]|reflexivity|apply set_same|]. exact H3.
Qed.
Definition base_line : string * list attr := ("line", [mkAttr "id" (link 0)])%string.
Definition lines (ps : list (placed E)) : Prop := Forall (fun q => (snd (fst q), snd q) = base_line) ps.
Lemma chain_traces vb grads ds n : chain n ds -> forall k off par, k <= n ->
  exists ps off', traces E vb grads ds k off par (body k) ps off' /\ lines ps /\ List.length ps = 2 ^ k.
Proof.
  intros Hc. induction k as [|k IH]; intros off par Hk.
  - exists [(off, "line"%string, [mkAttr "id" (link 0)])], off. split; [eapply tr_shape; [apply st_id|cbn; auto|apply tr_nil]|]. split; [repeat constructor|reflexivity].
  - destruct (IH (f0 E, f0 E) par ltac:(lia)) as (ps1 & o1 & T1 & L1 & N1). 
    exists (ps1 ++ (ps1 ++ [])), (origin E). split; [|split; [rewrite app_nil_r; apply Forall_app; auto|rewrite app_nil_r, app_length, N1; cbn; lia]].
    cbn [body]. assert (Hk' : ds (link k) = Some (body k)) by (apply Hc; lia).
    eapply tr_use; [apply st_both|reflexivity|reflexivity|reflexivity|exact Hk'|exact T1|].
    eapply tr_use; [apply st_href|reflexivity|reflexivity|reflexivity|exact Hk'|exact T1|apply tr_nil].
Qed.
Lemma lines_drawn vb ps : lines ps -> forall p, exists p', outlines E (shape E) vb p ps p' /\ List.length p' = List.length p + 2 * List.length ps.
Proof.
  induction 1 as [|[[off n] l] ps Hq Hl IH]; intros p; [exists p; split; [apply ol_nil|cbn; lia]|]. injection Hq as -> ->.
  edestruct IH as (p' & H1 & H2). exists p'. split; [eapply ol_cons; [eapply sh_line; reflexivity|exact H1]|]. rewrite H2. unfold joined. cbn [String.eqb Ascii.eqb Bool.eqb andb]. rewrite app_length. cbn. lia.
Qed.
Lemma lines_len vb ps : lines ps -> forall p p', outlines E (shape E) vb p ps p' -> List.length p' = List.length p + 2 * List.length ps.
Proof.
  induction 1 as [|[[off n] l] ps Hq Hl IH]; intros p p' H; inversion H; subst; [cbn; lia|]. injection Hq as -> ->.
  match goal with K : shape _ _ _ _ _ _ |- _ => inversion K; subst end. apply IH in H7.
  rewrite H7. unfold joined. cbn [String.eqb Ascii.eqb Bool.eqb andb]. rewrite app_length. cbn. lia.
Qed.
Theorem doubling_drawn (Hc : forall a b, fadd E a b = fadd E b a) (Hn : name_table E) n mode fuel : n <= fuel ->
  exists s log, parse (E := E) (S fuel) mode (flat_map tokens (doubling n)) TermEOF = PSvg s None log /\ 2 ^ n <= svg_ops s.
Proof.
  intros Hf. set (vb := mkB (f0 E) (f0 E) (if feqb E (f0 E) (f0 E) then f0 E else f0 E) (if feqb E (f0 E) (f0 E) then f0 E else f0 E)).
  set (w0 := with_defs E (set (w_defs E (world0 E)) (link 0) [DElem "line" [mkAttr "id" (link 0)]]) (world0 E)).
  assert (C0 : chain 0 (w_defs E w0)). { intros j Hj. replace j with 0 by lia. apply set_same. }
  destruct (chain_next vb (initial_style E) n 0 w0 C0) as (ds & K & Cn). cbn [Nat.add] in Cn.
  destruct (chain_traces vb (w_grads E (with_defs E ds w0)) ds n Cn n (f0 E, f0 E) (initial_style E) (Nat.le_refl n)) as (ps & o & T & L & N).
  destruct (lines_drawn vb ps L []) as (p & Hp & Np). cbn [List.length Nat.add] in Np.
  assert (Hdoc : document E (shape E) false n (doubling n) vb (with_figs E [mkFig E ps (initial_style E)] (with_defs E ds w0))).
  { exists [], []. eexists _, [], (initial_style E), ""%string, ""%string. split; [reflexivity|]. split; [reflexivity|]. split; [reflexivity|]. split; [plain_style|].
    split; [do 6 eexists; repeat split; reflexivity|].
    eapply sems_cons; [eapply sem_defs; [plain_style|]; eapply dk_new; [eapply dn_elem; [apply st_id|cbn; auto|reflexivity]|left; apply link_some|exact K]|].
    eapply sems_cons; [|apply sems_nil]. eapply sem_use; [apply st_href|reflexivity|reflexivity|reflexivity|apply Cn, Nat.le_refl|exact T| |apply sems_nil].
    exists p. split; [exact Hp|]. destruct p; [|reflexivity]. pose proof (pow2_gt n). cbn in Np. lia. }
  destruct (document_parses Hc Hn fuel mode false n (doubling n) vb _ Hf Hdoc ltac:(discriminate)) as (s & log & Hs & (_ & _ & _ & Hfig & _) & _).
  exists s, log. split; [exact Hs|]. cbn [w_figs with_figs] in Hfig. inversion Hfig as [|f sp fs sps (_ & _ & Ho) Hr E1 E2]; subst. inversion Hr; subst.
  apply (lines_len vb ps L) in Ho. unfold svg_ops, path_ops. rewrite <- E2. unfold list_sum. cbn [map fold_right]. cbn [List.length Nat.add] in Ho. lia.
Qed.
Theorem no_polynomial (Hc : forall a b, fadd E a b = fadd E b a) (Hn : name_table E) K d mode :
  exists ns fuel s log, parse (E := E) fuel mode (flat_map tokens ns) TermEOF = PSvg s None log /\ K * doc_size (flat_map tokens ns) ^ d < svg_ops s.
Proof.
  destruct (beats (K * 100 ^ d) (2 * d)) as (n & H). destruct (doubling_drawn Hc Hn n mode n (Nat.le_refl n)) as (s & log & Hs & Hb).
  exists (doubling n), (S n), s, log. split; [exact Hs|]. apply Nat.le_lt_trans with (K * 100 ^ d * (n + 1) ^ (2 * d)); [|lia].
  rewrite <- Nat.mul_assoc. apply Nat.mul_le_mono_l. rewrite Nat.pow_mul_r, <- Nat.pow_mul_l. apply Nat.pow_le_mono_l, doubling_size.
Qed.
End Drawn.

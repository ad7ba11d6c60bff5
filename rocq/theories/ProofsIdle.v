(** * ProofsIdle: path data in which a Z may close nothing *)
From Coq Require Import Lia.
From Verif Require Import SpecIdle Logic ProofsStr ProofsTok ProofsNum ProofsSeg ProofsPath ProofsPath2.
Local Open Scope go_scope.
Section I.
Context {E : Env} (add_comm : forall a b, fadd E a b = fadd E b a).
Notation pcur := (pcur E). Notation cmd := (cmd E). Notation point := (point E).
Section Off.
Context (off : point).
Lemma addSeg_idle seg s (c : pcur) : seg_for (E := E) seg ClosePath -> sim off s c -> pc_inPath c = false ->
  exists c', addSeg seg c = (c', Ret tt) /\ sim off (mkPen (at_ s) (from s) NoCtrl) c' /\ pc_path c' = pc_path c
    /\ pc_inPath c' = false /\ pc_log c' = pc_log c.
Proof.
  intros (key & t & -> & Ht & Hkey) Hs Hcl.
  rewrite addSeg_eq, (numbers_spelled _ _ Ht). cbn [fst snd args length].
  assert (Hk : key = "Z"%char \/ key = "z"%char) by (destruct Hkey as [->|[-> _]]; auto).
  unfold bind. assert (Hsw : segSwitch key 0 (set_points [] c) = (set_points [] c, Ret tt)).
  { destruct Hk as [-> | ->]; unfold segSwitch; cbn [eqk Ascii.eqb Bool.eqb orb]; unfold segZ, points, gets, bind; cbn [pc_points set_points pc_inPath]; rewrite Hcl; reflexivity. }
  rewrite Hsw. unfold modify. eexists. split; [reflexivity|]. destruct Hs as [H1 H2 H3 H4]. split; [|cbn; auto].
  split; cbn; auto. destruct Hk as [-> | ->]; split; reflexivity.
Qed.
Lemma segs_idle segs cs : Forall2 seg_for segs cs -> forall s (c : pcur), sim off s c ->
  exists c', mapM addSeg segs c = (c', Ret tt)
    /\ sim off (fst (run_idle E off (pc_inPath c) s cs)) c'
    /\ pc_path c' = pc_path c ++ snd (run_idle E off (pc_inPath c) s cs) /\ pc_log c' = pc_log c.
Proof.
  induction 1 as [|seg k segs cs Hseg _ IH]; intros s c Hs.
  - exists c. cbn. rewrite app_nil_r. auto.
  - assert (Hone : exists s1 o1 c1, match k with ClosePath => if pc_inPath c then exec E off s k else (mkPen (at_ s) (from s) NoCtrl, []) | _ => exec E off s k end = (s1, o1)
       /\ addSeg seg c = (c1, Ret tt) /\ sim off s1 c1 /\ pc_path c1 = pc_path c ++ o1
       /\ pc_inPath c1 = match k with MoveTo _ _ _ => true | ClosePath => false | _ => pc_inPath c end /\ pc_log c1 = pc_log c).
    { destruct (match k with ClosePath => negb (pc_inPath c) | _ => false end) eqn:Hidle.
      - destruct k; try discriminate. apply Bool.negb_true_iff in Hidle. rewrite Hidle.
        destruct (addSeg_idle seg s c Hseg Hs Hidle) as (c1 & K1 & K2 & K3 & K4 & K5).
        eexists _, _, c1. split; [reflexivity|]. rewrite app_nil_r. auto.
      - destruct (addSeg_good add_comm off seg k s c Hseg Hs) as (c1 & K1 & K2 & K3 & K4 & _ & K6).
        { intros ->. destruct (pc_inPath c); [reflexivity|discriminate]. }
        exists (fst (exec E off s k)), (snd (exec E off s k)), c1. split; [|auto 8].
        rewrite <- surjective_pairing. destruct k; try reflexivity. destruct (pc_inPath c); [reflexivity|discriminate]. }
    destruct Hone as (s1 & o1 & c1 & K0 & K1 & K2 & K3 & K4 & K5). cbn [run_idle]. rewrite K0, <- K4.
    destruct (IH s1 c1 K2) as (c2 & I1 & I2 & I3 & I4). destruct (run_idle E off (pc_inPath c1) s1 cs) as [s2 o2]. cbn [fst snd] in *.
    exists c2. cbn [mapM]. unfold bind. rewrite K1. split; [exact I1|]. split; [exact I2|]. split; [|congruence].
    rewrite I3, K3, app_assoc. reflexivity.
Qed.
End Off.
Theorem compilePath_idle s cs (c : pcur) : spells E s cs -> let off := (pc_curX c, pc_curY c) in
  exists c', compilePath s c = (c', Ret tt)
    /\ pc_path c' = snd (run_idle E off false (pen0 E) cs)
    /\ (pc_placeX c', pc_placeY c') = at_ (fst (run_idle E off false (pen0 E) cs)) /\ pc_log c' = pc_log c.
Proof.
  intros (lead & body & -> & Hlead & Hbody) off. rewrite compilePath_segments. unfold bind.
  destruct (sg_spelled body cs Hbody [] I) as (segs & Hsg & HF). rewrite !app_nil_r in Hsg.
  assert (Hs : segments (E := E) (lead ++ body) = segs).
  { unfold segments. rewrite runes_ascii.
    - rewrite ascii_runes_app, sg_in; [exact Hsg|]. revert Hlead. apply all_chars_imp, inSeg_sep.
    - rewrite all_chars_app, (seps_ascii _ Hlead), (spells_commands_ascii _ _ Hbody). reflexivity. }
  rewrite Hs. destruct (segs_idle off segs cs HF (pen0 E) (fst (pinit c)) (sim_init off c eq_refl)) as (c' & H1 & H2 & H3 & H4).
  exists c'. change (pinit c) with (fst (pinit c), @Ret unit tt). cbv iota beta. rewrite H1.
  split; [reflexivity|]. split; [exact H3|]. split; [apply H2|exact H4].
Qed.

(** ** Counting closes *)
Definition closes (o : list op) : nat := count_occ Bool.bool_dec (map (fun x => match x with OpClose => true | _ => false end) o) true.
Lemma closes_app a b : closes (a ++ b) = closes a + closes b.
Proof. unfold closes. rewrite map_app, count_occ_app. reflexivity. Qed.
Lemma many_closes {A} (f : pen E -> A -> pen E * list op) : (forall s a, closes (snd (f s a)) = 0) -> forall xs s, closes (snd (many E f s xs)) = 0.
Proof.
  intros H. induction xs as [|x xs IH]; intros s; [reflexivity|]. cbn [many]. specialize (H s x). destruct (f s x) as [s1 o1].
  specialize (IH s1). destruct (many E f s1 xs) as [s2 o2]. cbn [snd] in *. rewrite closes_app. lia.
Qed.
Lemma exec_closes off s k : closes (snd (exec E off s k)) = match k with ClosePath => 1 | _ => 0 end.
Proof.
  destruct k; cbn [exec]; try (apply many_closes; intros ? ?a; first [reflexivity | destruct a as [? ?]; reflexivity | destruct a as [[? ?] ?]; reflexivity]); [|reflexivity].
  pose proof (many_closes (line E off rel)  (fun s a => eq_refl) ps (mkPen (absolute E rel (at_ s) p) (absolute E rel (at_ s) p) NoCtrl)) as H.
  destruct (many _ _ _ ps) as [s' o]. exact H.
Qed.
Lemma idle_same off cs : forall b s, closes_open E b cs = true -> run_idle E off b s cs = run E off s cs.
Proof.
  unfold run. induction cs as [|k cs IH]; intros b s H; [reflexivity|]. cbn [run_idle many].
  destruct k; cbn [closes_open] in H; try (destruct (exec E off s _) as [s1 o1]; rewrite (IH _ s1 H); reflexivity).
  apply andb_prop in H as [-> H]. destruct (exec E off s _) as [s1 o1]. rewrite (IH _ s1 H); reflexivity.
Qed.
Definition zs (cs : list cmd) : nat := count_occ Bool.bool_dec (map (fun x => match x with ClosePath => true | _ => false end) cs) true.
Lemma run_closes off cs : forall s, closes (snd (run E off s cs)) = zs cs.
Proof.
  unfold run. induction cs as [|k cs IH]; intros s; [reflexivity|]. cbn [many]. pose proof (exec_closes off s k) as H.
  destruct (exec E off s k) as [s1 o1]. specialize (IH s1). destruct (many E _ s1 cs) as [s2 o2]. cbn [snd] in *. rewrite closes_app, H, IH.
  destruct k; reflexivity.
Qed.
Lemma idle_closes off cs : forall b s, closes (snd (run_idle E off b s cs)) <= zs cs /\ (closes_open E b cs = false -> closes (snd (run_idle E off b s cs)) < zs cs).
Proof.
  induction cs as [|k cs IH]; intros b s; [split; [cbn; lia|discriminate]|]. cbn [run_idle].
  pose proof (exec_closes off s k) as H.
  destruct k; cbn [closes_open]; change (zs (ClosePath :: cs)) with (S (zs cs)) || change (zs (_ :: cs)) with (zs cs);
    try (destruct (exec E off s _) as [s1 o1]; match goal with |- context [run_idle E off ?b' s1 cs] => specialize (IH b' s1); destruct (run_idle E off b' s1 cs) as [s2 o2] end;
         cbn [snd] in *; rewrite closes_app, H; exact IH).
  destruct b.
  - destruct (exec E off s _) as [s1 o1]. specialize (IH false s1). destruct (run_idle E off false s1 cs) as [s2 o2].
    cbn [snd andb] in *. rewrite closes_app, H. destruct IH as [I1 I2]. split; [lia|]. intros K. specialize (I2 K). lia.
  - specialize (IH false (mkPen (at_ s) (from s) NoCtrl)). destruct (run_idle E off false _ cs) as [s2 o2]. cbn [snd app andb] in *. lia.
Qed.
Theorem compilePath_exact s cs (c : pcur) : spells E s cs ->
  exists c', compilePath s c = (c', Ret tt)
    /\ (pc_path c' = draws E (pc_curX c, pc_curY c) cs <-> closes_open E false cs = true).
Proof.
  intros Hs. destruct (compilePath_idle s cs c Hs) as (c' & H & Hp & _). exists c'. split; [exact H|]. rewrite Hp. unfold draws. split.
  - intros He. destruct (closes_open E false cs) eqn:Hc; [reflexivity|]. exfalso.
    destruct (idle_closes (pc_curX c, pc_curY c) cs false (pen0 E)) as [_ K]. specialize (K Hc). rewrite He, run_closes in K. lia.
  - intros Hc. rewrite (idle_same _ _ _ _ Hc). reflexivity.
Qed.
Lemma second_close (p q r : point) s (c : pcur) :
  let cs := [MoveTo false p []; LineTo false q []; ClosePath; LineTo false r []; ClosePath] in
  spells E s cs ->
  exists c', compilePath s c = (c', Ret tt) /\ pc_path c' <> draws E (pc_curX c, pc_curY c) cs /\ (pc_placeX c', pc_placeY c') = r.
Proof.
  intros cs Hs. destruct (compilePath_idle s cs c Hs) as (c' & H & Hp & Hq & _). exists c'. split; [exact H|].
  split; [rewrite Hp; discriminate|]. rewrite Hq. reflexivity.
Qed.
End I.

From Verif Require Import ProofsF64.
Lemma fails_numbers {E : Env} k t (c : pcur E) : match snd (numbers (E := E) t) with Err _ => true | _ => false end = true ->
  segments (E := E) (String k t) = [String k t] -> exists c' e, compilePath (String k t) c = (c', Err e).
Proof.
  intros H Hs. rewrite compilePath_segments, Hs. unfold bind. change (pinit c) with (fst (pinit c), @Ret unit tt). cbv iota beta. cbn [mapM]. unfold bind.
  rewrite addSeg_eq. destruct (snd (numbers t)); try discriminate. eauto.
Qed.
Theorem exponents (O : Oracles) (c : pcur (F64 O)) :
  (exists c', compilePath "M1E1 2" c = (c', Err ErrParamMismatch)) /\ (exists c' e, compilePath "M1e+1 2" c = (c', Err e)).
Proof.
  split.
  - destruct (parseFloat (F64 O) "1") as [v|] eqn:Hv; [|exfalso; revert Hv; vm_compute; discriminate].
    destruct (compilePath_bad_count (F64_add_comm O) "" "" [] "M" 2 "1" [fmul (F64 O) v (flit (F64 O) 1 1)] "E1 2" c) as (c' & H & _);
      [reflexivity|apply spells_nil|reflexivity|reflexivity| |reflexivity|split; [reflexivity|discriminate]|exists c'; exact H].
    exists [(""%string, mkNum NoSign "1" None None)], ""%string. split; [reflexivity|]. split; [reflexivity|]. split; [reflexivity|].
    cbn [map snd]. unfold num_value. change (match n_sign _ with Minus => "-"%string | _ => ""%string end ++ unsigned_text _)%string with "1"%string. rewrite Hv. reflexivity.
  - apply fails_numbers; vm_compute; reflexivity.
Qed.

(** * ProofsPath: compilePath refines the pen semantics of SpecPath *)
From Coq Require Import Lia.
From Verif Require Export ProofsSeg.
Local Open Scope go_scope.

Section Path.
Context {E : Env}.
Context (fadd_comm : forall a b, fadd E a b = fadd E b a).
Notation F := (F E).
Notation pcur := (pcur E).
Notation point := (point E).
Notation pen := (pen E).
Notation cmd := (cmd E).
Notation p1 := (p1 E). Notation p2 := (p2 E). Notation p3 := (p3 E).
Notation many := (many E).

Lemma shiftp_abs cur p : shiftp cur p = absolute E true cur p.
Proof. unfold shiftp, absolute. rewrite (fadd_comm (fst p)), (fadd_comm (snd p)). reflexivity. Qed.

(** relative argument sets are absolute sets after adding the running point *)
Lemma many_abs {A} (f : bool -> pen -> A -> pen * list op) shift endp
  (Hf : forall s a, f true s a = f false s (shift (at_ s) a))
  (He : forall s a, at_ (fst (f false s a)) = endp a) : forall l s,
  many (f true) s l = many (f false) s (absl shift endp (at_ s) l).
Proof.
  induction l as [|a l IH]; intros s; [reflexivity|].
  cbn [SpecPath.many absl]. rewrite Hf.
  pose proof (He s (shift (at_ s) a)) as K.
  destruct (f false s (shift (at_ s) a)) as [s1 o1]. cbn in K. rewrite IH, K. reflexivity.
Qed.

Section Off.
Context (off : point).
Notation line := (line E off). Notation quad := (quad E off). Notation cubic := (cubic E off).
Notation smooth_quad := (smooth_quad E off). Notation smooth_cubic := (smooth_cubic E off).
Notation hline := (hline E off). Notation vline := (vline E off).
Notation exec := (exec E off).

Lemma line_abs rel s l : many (line rel) s l = many (line false) s (abs1 rel (at_ s) l).
Proof.
  destruct rel; [|reflexivity]. apply many_abs; [|reflexivity].
  intros s' p. rewrite shiftp_abs. reflexivity.
Qed.
Lemma squad_abs rel s l : many (smooth_quad rel) s l = many (smooth_quad false) s (abs1 rel (at_ s) l).
Proof.
  destruct rel; [|reflexivity]. apply many_abs; [|reflexivity].
  intros s' p. rewrite shiftp_abs. reflexivity.
Qed.
Lemma quad_abs rel s l : many (quad rel) s l = many (quad false) s (abs2 rel (at_ s) l).
Proof.
  destruct rel; [|reflexivity]. apply many_abs; [|reflexivity].
  intros s' p. unfold shift2. rewrite !shiftp_abs. reflexivity.
Qed.
Lemma scubic_abs rel s l : many (smooth_cubic rel) s l = many (smooth_cubic false) s (abs2 rel (at_ s) l).
Proof.
  destruct rel; [|reflexivity]. apply many_abs; [|reflexivity].
  intros s' p. unfold shift2. rewrite !shiftp_abs. reflexivity.
Qed.
Lemma cubic_abs rel s l : many (cubic rel) s l = many (cubic false) s (abs3 rel (at_ s) l).
Proof.
  destruct rel; [|reflexivity]. apply many_abs.
  - intros s' [[a b] d]. unfold shift3. rewrite !shiftp_abs. reflexivity.
  - intros s' [[a b] d]. reflexivity.
Qed.
Lemma hline_abs rel s l : many (hline rel) s l = many (hline false) s (absv rel (fst (at_ s)) l).
Proof.
  destruct rel; [|reflexivity]. revert s. induction l as [|x l IH]; intros s; [reflexivity|].
  cbn [SpecPath.many absv vals_abs SpecPath.hline]. rewrite IH. reflexivity.
Qed.
Lemma vline_abs rel s l : many (vline rel) s l = many (vline false) s (absv rel (snd (at_ s)) l).
Proof.
  destruct rel; [|reflexivity]. revert s. induction l as [|x l IH]; intros s; [reflexivity|].
  cbn [SpecPath.many absv vals_abs SpecPath.vline]. rewrite IH. reflexivity.
Qed.

(** absolute sets in closed form *)
Lemma many_closed {A} (f : pen -> A -> pen * list op) (g : A -> point) (ct : A -> ctrl E) (o : A -> list op)
  (Hf : forall s a, f s a = (mkPen (g a) (from s) (ct a), o a)) : forall l s z, l <> [] ->
  many f s l = (mkPen (g (last l z)) (from s) (ct (last l z)), flat_map o l).
Proof.
  induction l as [|a l IH]; intros s z H; [congruence|]. cbn [SpecPath.many]. rewrite Hf.
  destruct l as [|b l].
  - cbn. reflexivity.
  - rewrite (IH _ z) by congruence. cbn [from]. reflexivity.
Qed.

Lemma hline_closed l : forall (s : pen) z, l <> [] ->
  many (hline false) s l = (mkPen (last l z, snd (at_ s)) (from s) NoCtrl,
                            flat_map (fun x => lineOps off (x, snd (at_ s))) l).
Proof.
  induction l as [|a l IH]; intros s z H; [congruence|]. cbn [SpecPath.many SpecPath.hline].
  destruct l as [|b l]; [reflexivity|]. rewrite (IH _ z) by congruence. reflexivity.
Qed.
Lemma vline_closed l : forall (s : pen) z, l <> [] ->
  many (vline false) s l = (mkPen (fst (at_ s), last l z) (from s) NoCtrl,
                            flat_map (fun y => lineOps off (fst (at_ s), y)) l).
Proof.
  induction l as [|a l IH]; intros s z H; [congruence|]. cbn [SpecPath.many SpecPath.vline].
  destruct l as [|b l]; [reflexivity|]. rewrite (IH _ z) by congruence. reflexivity.
Qed.

(** ** simulation *)
Definition ctrl_ok (k : ctrl E) (c : pcur) : Prop :=
  match k with
  | NoCtrl => quadKey (pc_lastKey c) = false /\ cubeKey (pc_lastKey c) = false
  | QuadCtrl p => quadKey (pc_lastKey c) = true /\ cubeKey (pc_lastKey c) = false /\ cntl c = p
  | CubicCtrl p => quadKey (pc_lastKey c) = false /\ cubeKey (pc_lastKey c) = true /\ cntl c = p
  end.
Record sim (s : pen) (c : pcur) : Prop := {
  sim_at : place c = at_ s;
  sim_from : pc_inPath c = true -> start c = from s;
  sim_ctrl : ctrl_ok (last_ctrl s) c;
  sim_off : offc c = off
}.

Definition opens (k : cmd) (b : bool) : bool :=
  match k with MoveTo _ _ _ => true | ClosePath => false | _ => b end.

(** what a command does to the cursor *)
Definition good (k : cmd) (key : ascii) (s : pen) (c : pcur) (m : M pcur unit) : Prop :=
  exists c', m c = (c', Ret tt)
    /\ sim (fst (exec s k)) (set_lastKey key c')
    /\ pc_path c' = pc_path c ++ snd (exec s k)
    /\ pc_inPath c' = opens k (pc_inPath c)
    /\ pc_mode c' = pc_mode c /\ pc_log c' = pc_log c.

Lemma fold_stepT k (Hk : quadKey k = true) (Hk2 : cubeKey k = false) l : forall s c, sim s c -> l <> [] ->
  let c' := fold_left (stepT k) l c in
  sim (fst (many (smooth_quad false) s l)) (set_lastKey k c')
  /\ pc_path c' = pc_path c ++ snd (many (smooth_quad false) s l)
  /\ pc_inPath c' = pc_inPath c /\ pc_mode c' = pc_mode c /\ pc_log c' = pc_log c.
Proof.
  assert (Hone : forall s c p, sim s c ->
    sim (fst (smooth_quad false s p)) (stepT k c p)
    /\ pc_path (stepT k c p) = pc_path c ++ snd (smooth_quad false s p) /\ pc_lastKey (stepT k c p) = k).
  { intros s c p [Ha Hf Hc Ho].
    assert (HQ : ctlQ c = match last_ctrl s with QuadCtrl q => mirror E (at_ s) q | _ => at_ s end).
    { unfold ctlQ. rewrite Ha. destruct (last_ctrl s) as [|q|q]; cbn [ctrl_ok] in Hc.
      - destruct Hc as [-> _]. reflexivity.
      - destruct Hc as (-> & _ & ->). reflexivity.
      - destruct Hc as (-> & _). reflexivity. }
    split; [|split; [|reflexivity]].
    - split.
      + cbn. destruct p; reflexivity.
      + cbn. exact Hf.
      + cbn. rewrite <- HQ. repeat split; auto. unfold cntl; cbn. destruct (ctlQ c); reflexivity.
      + cbn. exact Ho.
    - cbn. rewrite HQ, Ho. reflexivity. }
  induction l as [|p l IH]; intros s c Hs Hne; [congruence|].
  cbn zeta. cbn [fold_left SpecPath.many].
  destruct (Hone s c p Hs) as (H1 & H2 & H3).
  destruct (smooth_quad false s p) as [s1 o1] eqn:Hsq. cbn [fst snd] in H1, H2.
  destruct l as [|q l].
  - cbn [fold_left SpecPath.many fst snd]. rewrite app_nil_r. repeat split; auto; cbn.
    + apply H1. + apply H1. + destruct H1 as [_ _ H1 _]. rewrite <- H3. exact H1. + apply H1.
  - destruct (IH s1 (stepT k c p) H1 ltac:(congruence)) as (I1 & I2 & I3 & I4 & I5).
    destruct (many (smooth_quad false) s1 (q :: l)) as [s2 o2] eqn:Hm. cbn [fst snd] in *.
    repeat split; auto; try apply I1.
    + rewrite I2, H2, app_assoc. reflexivity.
Qed.

Lemma fold_stepS k (Hk : cubeKey k = true) (Hk2 : quadKey k = false) l : forall s c, sim s c -> l <> [] ->
  let c' := fold_left (stepS k) l c in
  sim (fst (many (smooth_cubic false) s l)) (set_lastKey k c')
  /\ pc_path c' = pc_path c ++ snd (many (smooth_cubic false) s l)
  /\ pc_inPath c' = pc_inPath c /\ pc_mode c' = pc_mode c /\ pc_log c' = pc_log c.
Proof.
  assert (Hone : forall s c p, sim s c ->
    sim (fst (smooth_cubic false s p)) (stepS k c p)
    /\ pc_path (stepS k c p) = pc_path c ++ snd (smooth_cubic false s p) /\ pc_lastKey (stepS k c p) = k).
  { intros s c p [Ha Hf Hc Ho].
    assert (HQ : ctlC c = match last_ctrl s with CubicCtrl q => mirror E (at_ s) q | _ => at_ s end).
    { unfold ctlC. rewrite Ha. destruct (last_ctrl s) as [|q|q]; cbn [ctrl_ok] in Hc.
      - destruct Hc as [_ ->]. reflexivity.
      - destruct Hc as (_ & -> & _). reflexivity.
      - destruct Hc as (_ & -> & ->). reflexivity. }
    split; [|split; [|reflexivity]].
    - split.
      + cbn. destruct (snd p) as [u v] eqn:Hu. unfold place; cbn. rewrite Hu. reflexivity.
      + cbn. exact Hf.
      + cbn. repeat split; auto. unfold cntl; cbn. destruct (fst p); reflexivity.
      + cbn. exact Ho.
    - cbn. rewrite HQ, Ho. reflexivity. }
  induction l as [|p l IH]; intros s c Hs Hne; [congruence|].
  cbn zeta. cbn [fold_left SpecPath.many].
  destruct (Hone s c p Hs) as (H1 & H2 & H3).
  destruct (smooth_cubic false s p) as [s1 o1] eqn:Hsq. cbn [fst snd] in H1, H2.
  destruct l as [|q l].
  - cbn [fold_left SpecPath.many fst snd]. rewrite app_nil_r. repeat split; auto; cbn.
    + apply H1. + apply H1. + destruct H1 as [_ _ H1 _]. rewrite <- H3. exact H1. + apply H1.
  - destruct (IH s1 (stepS k c p) H1 ltac:(congruence)) as (I1 & I2 & I3 & I4 & I5).
    destruct (many (smooth_cubic false) s1 (q :: l)) as [s2 o2] eqn:Hm. cbn [fst snd] in *.
    repeat split; auto; try apply I1.
    + rewrite I2, H2, app_assoc. reflexivity.
Qed.

Lemma abs1_ne rel cur p l : abs1 (E := E) rel cur (p :: l) <> [].
Proof. destruct rel; cbn; congruence. Qed.
Lemma abs2_ne rel cur p l : abs2 (E := E) rel cur (p :: l) <> [].
Proof. destruct rel; cbn; congruence. Qed.
Lemma abs3_ne rel cur p l : abs3 (E := E) rel cur (p :: l) <> [].
Proof. destruct rel; cbn; congruence. Qed.
Lemma absv_ne rel cur p l : absv (E := E) rel cur (p :: l) <> [].
Proof. destruct rel; cbn; congruence. Qed.

Lemma sim_setpoints s c l : sim s c -> sim s (set_points l c).
Proof. intros [A B D G]; split; auto. Qed.

Ltac closedseg := 
  eexists; split; [reflexivity|]; cbn [fst snd]; split;
    [split; [cbn; auto | cbn; auto | cbn; repeat split; auto | cbn; auto]
    |split; [cbn|repeat split; auto]].

Lemma place_set k (p : point) (c : pcur) : place (set_lastKey k (setPlace p c)) = p.
Proof. destruct p; reflexivity. Qed.

Lemma good_cmd k s c : sim s c -> pc_points c = args E k ->
  (k = ClosePath -> pc_inPath c = true) ->
  good k (letter E k) s c (segSwitch (letter E k) (length (args E k))).
Proof.
  intros Hs Hp Hcl. pose proof Hs as [Ha Hf Hc Ho].
  set (z := (fnum E 0, fnum E 0) : point).
  destruct k as [rel p ps|rel p ps|rel x xs|rel y ys|rel q qs|rel p ps|rel q qs|rel q qs|]; cbn [args] in *.
  - (* M *)
    assert (Hseg : segSwitch (letter E (MoveTo rel p ps)) (length (flat_map p1 (p :: ps))) c
                   = segM rel (length (flat_map p1 (p :: ps))) c) by (destruct rel; reflexivity).
    unfold good. rewrite Hseg.
    destruct (abs1 rel (place c) (p :: ps)) as [|a l] eqn:Habs; [destruct (abs1_ne _ _ _ _ Habs)|].
    rewrite (segM_eq rel (p :: ps) a l) by (congruence || (symmetry; congruence) || assumption || idtac).
    cbn [SpecPath.exec].
    assert (Hal : absolute E rel (at_ s) p = a /\ abs1 rel a ps = l).
    { destruct rel; cbn in Habs; injection Habs as <- <-; [|auto].
      rewrite shiftp_abs, Ha. auto. }
    destruct Hal as [-> <-]. rewrite line_abs. cbn [at_].
    set (l := abs1 rel a ps) in *.
    assert (HM : many (line false) (mkPen a a NoCtrl) l = (mkPen (last (a :: l) a) a NoCtrl, flat_map (lineOps off) l)).
    { destruct l as [|b l]; [reflexivity|].
      rewrite (many_closed (line false) (fun p => p) (fun _ => NoCtrl) (lineOps off)) with (z := a); [reflexivity|reflexivity|congruence]. }
    rewrite HM, Ho. eexists; split; [reflexivity|]. cbn [fst snd]. split; [|repeat split; auto].
    split; cbn; auto.
    + apply place_set.
    + intros _. destruct a; reflexivity.
    + destruct rel; auto.
  - (* L *)
    assert (Hseg : segSwitch (letter E (LineTo rel p ps)) (length (flat_map p1 (p :: ps))) c
                   = segL rel (length (flat_map p1 (p :: ps))) c) by (destruct rel; reflexivity).
    unfold good. rewrite Hseg. cbn [SpecPath.exec]. rewrite line_abs, <- Ha.
    rewrite (segL_eq rel (p :: ps) (abs1 rel (place c) (p :: ps)) _ z) by (auto || congruence).
    rewrite (many_closed (line false) (fun p => p) (fun _ => NoCtrl) (lineOps off)) with (z := z);
      [|reflexivity|apply abs1_ne].
    rewrite Ho. eexists; split; [reflexivity|]. cbn [fst snd]. split; [|repeat split; auto].
    split; cbn; auto.
    + apply place_set.
    + destruct rel; auto.
  - (* H *)
    assert (Hseg : segSwitch (letter E (HLineTo rel x xs)) (length (x :: xs)) c
                   = segH rel (length (x :: xs)) c) by (destruct rel; reflexivity).
    unfold good. rewrite Hseg. cbn [SpecPath.exec]. rewrite hline_abs, <- Ha.
    rewrite (segH_eq rel _ (fst z)) by congruence. rewrite Hp. cbn zeta.
    change (fst (place c)) with (pc_placeX c).
    rewrite (hline_closed _ _ (fst z)) by apply absv_ne.
    rewrite Ho, <- Ha. eexists; split; [reflexivity|]. cbn [fst snd]. split; [|repeat split; auto].
    split; cbn; auto. destruct rel; auto.
  - (* V *)
    assert (Hseg : segSwitch (letter E (VLineTo rel y ys)) (length (y :: ys)) c
                   = segV rel (length (y :: ys)) c) by (destruct rel; reflexivity).
    unfold good. rewrite Hseg. cbn [SpecPath.exec]. rewrite vline_abs, <- Ha.
    rewrite (segV_eq rel _ (fst z)) by congruence. rewrite Hp. cbn zeta.
    change (snd (place c)) with (pc_placeY c).
    rewrite (vline_closed _ _ (fst z)) by apply absv_ne.
    rewrite Ho, <- Ha. eexists; split; [reflexivity|]. cbn [fst snd]. split; [|repeat split; auto].
    split; cbn; auto. destruct rel; auto.
  - (* Q *)
    assert (Hseg : segSwitch (letter E (QuadTo rel q qs)) (length (flat_map p2 (q :: qs))) c
                   = segQ rel (length (flat_map p2 (q :: qs))) c) by (destruct rel; reflexivity).
    unfold good. rewrite Hseg. cbn [SpecPath.exec]. rewrite quad_abs, <- Ha.
    rewrite (segQ_eq rel (q :: qs) (abs2 rel (place c) (q :: qs)) _ (z, z)) by (auto || congruence).
    rewrite (many_closed (quad false) snd (fun a => QuadCtrl (fst a)) (quadOps off)) with (z := (z, z));
      [|reflexivity|apply abs2_ne].
    rewrite Ho. eexists; split; [reflexivity|]. cbn [fst snd]. split; [|repeat split; auto].
    split; cbn; auto.
    + apply place_set.
    + unfold cntl; cbn. destruct (fst (last _ (z, z))); destruct rel; auto.
  - (* T *)
    assert (Hseg : segSwitch (letter E (SmoothQuadTo rel p ps)) (length (flat_map p1 (p :: ps))) c
                   = segT (letter E (SmoothQuadTo rel p ps)) rel (length (flat_map p1 (p :: ps))) c) by (destruct rel; reflexivity).
    unfold good. rewrite Hseg. cbn [SpecPath.exec]. rewrite squad_abs, <- Ha.
    rewrite (segT_eq _ rel (p :: ps) (abs1 rel (place c) (p :: ps))) by (auto || congruence).
    eexists; split; [reflexivity|].
    destruct (fold_stepT (letter E (SmoothQuadTo rel p ps)) ltac:(destruct rel; reflexivity) ltac:(destruct rel; reflexivity)
       (abs1 rel (place c) (p :: ps)) s (set_points (flat_map p1 (abs1 rel (place c) (p :: ps))) c)
       (sim_setpoints _ _ _ Hs) (abs1_ne _ _ _ _)) as (H1 & H2 & H3 & H4 & H5).
    split; [exact H1|]. split; [exact H2|]. split; [exact H3|]. split; assumption.
  - (* C *)
    assert (Hseg : segSwitch (letter E (CubicTo rel q qs)) (length (flat_map p3 (q :: qs))) c
                   = segC rel (length (flat_map p3 (q :: qs))) c) by (destruct rel; reflexivity).
    unfold good. rewrite Hseg. cbn [SpecPath.exec]. rewrite cubic_abs, <- Ha.
    rewrite (segC_eq rel (q :: qs) (abs3 rel (place c) (q :: qs)) _ (z, z, z)) by (auto || congruence).
    rewrite (many_closed (cubic false) snd (fun a => CubicCtrl (snd (fst a))) (cubeOps off)) with (z := (z, z, z));
      [|intros ? [[? ?] ?]; reflexivity|apply abs3_ne].
    rewrite Ho. eexists; split; [reflexivity|]. cbn [fst snd]. split; [|repeat split; auto].
    split; cbn; auto.
    + apply place_set.
    + unfold cntl; cbn. destruct (snd (fst (last _ (z, z, z)))); destruct rel; auto.
  - (* S *)
    assert (Hseg : segSwitch (letter E (SmoothCubicTo rel q qs)) (length (flat_map p2 (q :: qs))) c
                   = segS (letter E (SmoothCubicTo rel q qs)) rel (length (flat_map p2 (q :: qs))) c) by (destruct rel; reflexivity).
    unfold good. rewrite Hseg. cbn [SpecPath.exec]. rewrite scubic_abs, <- Ha.
    rewrite (segS_eq _ rel (q :: qs) (abs2 rel (place c) (q :: qs))) by (auto || congruence).
    eexists; split; [reflexivity|].
    destruct (fold_stepS (letter E (SmoothCubicTo rel q qs)) ltac:(destruct rel; reflexivity) ltac:(destruct rel; reflexivity)
       (abs2 rel (place c) (q :: qs)) s (set_points (flat_map p2 (abs2 rel (place c) (q :: qs))) c)
       (sim_setpoints _ _ _ Hs) (abs2_ne _ _ _ _)) as (H1 & H2 & H3 & H4 & H5).
    split; [exact H1|]. split; [exact H2|]. split; [exact H3|]. split; assumption.
  - (* Z *)
    unfold good. specialize (Hcl eq_refl).
    change (segSwitch (letter E ClosePath) (length []) c) with (segZ c).
    unfold segZ, points, gets, bind. rewrite Hp, Hcl.
    eexists; split; [reflexivity|]. cbn [SpecPath.exec fst snd]. split; [|repeat split; auto].
    split; cbn; auto.
Qed.

End Off.
End Path.

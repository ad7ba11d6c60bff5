(** * ProofsArc2: arcs in path data *)
From Coq Require Import Lia Reals Lra Psatz.
From Flocq Require Import Core.Raux.
From Verif Require Export SpecArc ProofsPath3 ProofsArc.
Local Open Scope go_scope.

(** ** arcs in path data, any number type *)
Section Generic.
Context {E : Env}.
Notation F := (F E).
Notation pcur := (pcur E).
Notation point := (point E).
Notation pen := (pen E).
Notation step := (step E).
Notation sg := (sg (E := E)).
Local Open Scope nat_scope.

Lemma ellSegs_arc n : forall i segs ra rb ex ey cx cy sT cT eta dEta al lx ly ldx ldy p,
  (n = 0 \/ (i + Z.of_nat n = segs + 1)%Z) ->
  exists cs, ellSegs (E := E) n i segs ra rb ex ey cx cy sT cT eta dEta al lx ly ldx ldy p
             = (p ++ cs, match n with O => (lx, ly) | _ => (ex, ey) end)
    /\ match n with O => cs = [] | _ => ends_at E (ex, ey) cs end.
Proof.
  induction n as [|n IH]; intros i segs ra rb ex ey cx cy sT cT eta dEta al lx ly ldx ldy p Hn.
  - exists []. rewrite app_nil_r. cbn. auto.
  - destruct Hn as [Hn|Hn]; [discriminate|]. cbn [ellSegs].
    match goal with |- context [let (px, py) := ?e in _] => destruct e as [px py] eqn:He end.
    match goal with |- context [let (dx, dy) := ?e in _] => destruct e as [dx dy] eqn:Hd end.
    match goal with |- context [ellSegs n ?i' _ _ _ _ _ _ _ _ _ _ _ _ _ _ _ _ (pCube ?a ?b ?d p)] =>
      set (A := a); set (B := b) end.
    unfold pCube.
    destruct (IH (i + 1)%Z segs ra rb ex ey cx cy sT cT eta dEta al px py dx dy (p ++ [OpCubicTo A B (toFixedP px py)])) as (cs & H1 & H2).
    { right. lia. }
    exists (OpCubicTo A B (toFixedP px py) :: cs). rewrite H1, <- app_assoc. split.
    + cbn [app]. f_equal. destruct n; [|reflexivity].
      destruct (Z.eqb_spec i segs) as [->|Hne]; [congruence|lia].
    + destruct n as [|n].
      * subst cs. exists [], A, B. split; [|constructor]. cbn [app].
        destruct (Z.eqb_spec i segs) as [->|Hne]; [|lia]. injection He as <- <-. reflexivity.
      * destruct H2 as (pre & b & c & -> & HF). exists (OpCubicTo A B (toFixedP px py) :: pre), b, c.
        split; [reflexivity|]. constructor; [exact I|exact HF].
Qed.

(** what one arc does: either cubic curves ending at [q], or nothing *)
Definition arc_gen (off s : point) (a : arc_args E) (q : point) (o : list op) (e : point) : Prop :=
  (ends_at E q o /\ e = q) \/ (o = [] /\ e = (fadd E (fst s) (fst off), fadd E (snd s) (snd off))).

(** the call that the code makes for one arc *)
Definition arc_call (off s : point) (a : arc_args E) (q : point) (p : path) : outcome (path * (F * F)) :=
  let '(rx, ry, rot, fa, fs) := a in
  let '((cx, cy), (ra, rb)) :=
    findEllipseCenter rx ry (fdiv E (fmul E rot (fpi E)) (fnum E 180)) (fst s) (snd s) (fst q) (snd q)
                      (feqb E fs (fnum E 0)) (feqb E fa (fnum E 0)) in
  addArc [ra; rb; rot; fa; fs; fst q; snd q] (fadd E cx (fst off)) (fadd E cy (snd off))
         (fadd E (fst s) (fst off)) (fadd E (snd s) (snd off)) p.
Lemma arc_call_gen off s a q p : exists o e, arc_call off s a q p = Ret (p ++ o, e) /\ arc_gen off s a q o e.
Proof.
  destruct a as [[[[rx ry] rot] fa] fs]. unfold arc_call.
  destruct (findEllipseCenter _ _ _ _ _ _ _ _ _) as [[cx cy] [ra rb]].
  unfold addArc. cbn [idx nth_error obind]. cbv zeta.
  destruct (ellipsePrime _ _ _ _ _) as [u v].
  match goal with |- context [ellSegs (Z.to_nat ?sg) 1 ?sg ?ra ?rb ?ex ?ey ?kx ?ky ?sT ?cT ?eta ?de ?al ?lx ?ly ?dx ?dy ?q] =>
    destruct (ellSegs_arc (Z.to_nat sg) 1 sg ra rb ex ey kx ky sT cT eta de al lx ly dx dy q) as (cs & H1 & H2);
    [destruct (Z_lt_le_dec sg 0) as [H|H]; [left; destruct sg; [reflexivity|lia|reflexivity]|right; rewrite Z2Nat.id; lia]|];
    rewrite H1; destruct (Z.to_nat sg) end; eexists _, _; (split; [reflexivity|]).
  - right. auto.
  - left. split; [|destruct q; reflexivity]. destruct q; exact H2.
Qed.

Section Run.
Context (fadd_comm : forall a b, fadd E a b = fadd E b a).
Context (off : point) (arc : point -> arc_args E -> point -> list op -> point -> Prop).
Context (Harc : forall s a q p, exists o e, arc_call off s a q p = Ret (p ++ o, e) /\ arc s a q o e).

Lemma addArcFromA_one rx ry rot fa fs (q : point) (c : pcur) :
  pc_points c = [rx; ry; rot; fa; fs; fst q; snd q] -> offc c = off ->
  exists ps o e, addArcFromA 0 c = (set_place (fst e) (snd e) (set_path (pc_path c ++ o) (set_points ps c)), Ret tt)
    /\ arc (place c) (rx, ry, rot, fa, fs) q o e.
Proof.
  intros Hp Ho. destruct (Harc (place c) (rx, ry, rot, fa, fs) q (pc_path c)) as (o & e & H1 & H2).
  unfold arc_call, place in H1. rewrite <- Ho in H1. unfold offc in H1. cbn [fst snd] in H1.
  unfold addArcFromA, pnt, bind, gets, lift. cbn [Nat.add]. rewrite Hp. cbn [idx nth_error].
  destruct (findEllipseCenter _ _ _ _ _ _ _ _ _) as [[cx cy] [ra rb]]. cbn [upd Nat.add].
  unfold modify. cbn [obind]. rewrite H1. destruct e as [lx ly].
  exists [ra; rb; rot; fa; fs; fst q; snd q], o, (lx, ly). split; [reflexivity|exact H2].
Qed.
Lemma segA_one rel rx ry rot fa fs (p : point) (c : pcur) :
  pc_points c = [rx; ry; rot; fa; fs; fst p; snd p] -> offc c = off ->
  exists ps o e, segA rel 7 c = (set_place (fst e) (snd e) (set_path (pc_path c ++ o) (set_points ps c)), Ret tt)
    /\ arc (place c) (rx, ry, rot, fa, fs) (absolute E rel (place c) p) o e.
Proof.
  intros Hp Ho.
  assert (HR : requireSets 7 false c = (c, Ret tt)).
  { unfold requireSets, hasSetsOrMore, points, gets, bind. rewrite Hp. reflexivity. }
  unfold segA. rewrite (bind_step _ _ _ _ _ HR).
  assert (HP : exists ps, (if rel then addPlaceAt 5 else ret tt) c = (set_points ps c, Ret tt)
     /\ ps = [rx; ry; rot; fa; fs; fst (absolute E rel (place c) p); snd (absolute E rel (place c) p)]).
  { destruct rel; eexists; (split; [|reflexivity]).
    - unfold addPlaceAt, pnt, bind, gets, lift. cbn [Nat.add]. rewrite Hp. cbn [idx nth_error upd obind]. unfold modify.
      cbn [set_points pc_points idx nth_error upd obind]. cbn [absolute plus fst snd place pc_placeX pc_placeY].
      rewrite (fadd_comm (pc_placeX c)), (fadd_comm (pc_placeY c)). destruct c; reflexivity.
    - cbn [absolute]. rewrite <- Hp. destruct c; reflexivity. }
  destruct HP as (ps & HP & Eps).
  destruct (addArcFromA_one rx ry rot fa fs (absolute E rel (place c) p) (set_points ps c)) as (ps' & o & e & H1 & H2).
  { exact Eps. } { exact Ho. }
  exists ps', o, e. split; [|exact H2].
  change (loop 7 0 7 (7 - 6)) with (loop (S := pcur) 7 0 7 1). cbn [loop Nat.ltb Nat.leb Nat.add].
  assert (K : (if rel then addPlaceAt 5 else ret tt) c = (set_points ps c, Ret tt)) by exact HP.
  destruct rel; cbv iota in K |- *; unfold bind; rewrite K, H1; destruct c; reflexivity.
Qed.
Definition seg_of (seg : string) (k : step) : Prop :=
  exists key t, seg = String key t /\ spells_numbers E t (step_args E k)
    /\ (key = step_letter E k \/ key = "z"%char /\ k = Plain ClosePath).
Definition step_opens (k : step) (b : bool) : bool := match k with Plain c => opens c b | _ => b end.

Lemma addSeg_step seg k s (c : pcur) : seg_of seg k -> sim off s c -> (k = Plain ClosePath -> pc_inPath c = true) ->
  exists c' o s', addSeg seg c = (c', Ret tt)
    /\ sim off s' c' /\ (forall r o2 s2, drawn E arc off s' r o2 s2 -> drawn E arc off s (k :: r) (o ++ o2) s2)
    /\ pc_path c' = pc_path c ++ o
    /\ pc_inPath c' = step_opens k (pc_inPath c)
    /\ pc_mode c' = pc_mode c /\ pc_log c' = pc_log c.
Proof.
  intros (key & t & -> & Ht & Hkey) Hs Hcl. destruct k as [k|rel a p].
  - destruct (addSeg_good fadd_comm off (String key t) k s c) as (c' & H1 & H2 & H3 & H4 & H5 & H6); auto.
    { exists key, t. repeat split; auto. destruct Hkey as [Hk|[Hk E1]]; [auto|right; split; congruence]. }
    { intros ->. auto. }
    exists c', (snd (exec E off s k)), (fst (exec E off s k)). repeat split; auto; try apply H2.
    intros r o2 s2 Hd. constructor. exact Hd.
  - destruct Hkey as [->|[_ Hk]]; [|discriminate].
    rewrite addSeg_eq, (numbers_spelled _ _ Ht). cbn [fst snd].
    destruct a as [[[[rx ry] rot] fa] fs]. cbn [step_args] in *.
    destruct (segA_one rel rx ry rot fa fs p (set_points [rx; ry; rot; fa; fs; fst p; snd p] c) eq_refl) as (ps & o & e & H1 & H2).
    { apply Hs. }
    assert (Hsw : segSwitch (step_letter E (ArcTo rel (rx, ry, rot, fa, fs) p)) 7 = segA (E := E) rel 7) by (destruct rel; reflexivity).
    cbn [length]. unfold bind. rewrite Hsw, H1. unfold modify. eexists _, o, (mkPen e (from s) NoCtrl). split; [reflexivity|].
    split; [|split; [|split; [reflexivity|split; [reflexivity|split; reflexivity]]]].
    + destruct Hs as [A1 A2 A3 A4]. split; cbn [at_ from last_ctrl].
      * destruct e; reflexivity.
      * exact A2.
      * cbn [step_letter]. destruct rel; cbn; repeat split; discriminate.
      * exact A4.
    + intros r o2 s2 Hd. destruct Hs as [A1 A2 A3 A4]. change (place (set_points _ c)) with (place c) in H2. rewrite A1 in H2.
      econstructor; [exact H2|exact Hd].
Qed.
Lemma steps_good segs ks : Forall2 seg_of segs ks -> forall s (c : pcur), sim off s c ->
  steps_close E (pc_inPath c) ks = true ->
  exists c' o s', mapM addSeg segs c = (c', Ret tt)
    /\ sim off s' c' /\ drawn E arc off s ks o s' /\ pc_path c' = pc_path c ++ o
    /\ pc_mode c' = pc_mode c /\ pc_log c' = pc_log c.
Proof.
  induction 1 as [|seg k segs ks Hseg _ IH]; intros s c Hs Hcl.
  - exists c, [], s. cbn. rewrite app_nil_r. repeat split; auto; try apply Hs. constructor.
  - destruct (addSeg_step seg k s c Hseg Hs) as (c1 & o1 & s1 & H1 & H2 & H2' & H3 & H4 & H5 & H6).
    { intros ->. cbn in Hcl. apply andb_prop in Hcl. tauto. }
    destruct (IH s1 c1 H2) as (c2 & o2 & s2 & I1 & I2 & I2' & I3 & I5 & I6).
    { rewrite H4. destruct k as [[]|]; cbn in Hcl |- *; auto. apply andb_prop in Hcl. tauto. }
    exists c2, (o1 ++ o2), s2. cbn [mapM]. unfold bind. rewrite H1, I1.
    split; [reflexivity|]. split; [exact I2|]. split; [apply H2'; exact I2'|]. repeat split; try congruence.
    rewrite I3, H3, app_assoc. reflexivity.
Qed.
End Run.

Lemma step_split k : isLetter E (code (step_letter E k)) && negb (code (step_letter E k) =? 101)%N = true.
Proof. destruct k as [k|rel]; [apply letter_split|destruct rel; reflexivity]. Qed.
Lemma steps_split s ks : spells_steps E s ks ->
  exists segs, sg None (ascii_runes s) = segs /\ Forall2 seg_of segs ks /\ fresh (E := E) (ascii_runes s) /\ all_chars is_ascii s = true.
Proof.
  induction 1 as [|c t s cs Ht Hs IH|t s cs Ht Hs IH].
  - exists []. repeat split; constructor.
  - destruct IH as (segs & Hsg & HF & Hfr & Hasc).
    exists (String (step_letter E c) t :: segs). split; [|split; [|split]].
    + cbn [ascii_runes app]. rewrite sg_letter by apply step_split. cbn [app].
      rewrite ascii_runes_app, sg_in by (eapply inSeg_numbers; eauto).
      rewrite sg_fresh by exact Hfr. rewrite Hsg. reflexivity.
    + constructor; [|exact HF]. exists (step_letter E c), t. auto.
    + apply step_split.
    + cbn [all_chars]. rewrite all_chars_app, Hasc, (spells_numbers_ascii _ _ Ht).
      destruct c as [c|[] a p]; try reflexivity. destruct c; cbn [step_letter letter]; try destruct rel; reflexivity.
  - destruct IH as (segs & Hsg & HF & Hfr & Hasc).
    exists (String "z" t :: segs). split; [|split; [|split]].
    + cbn [ascii_runes app]. rewrite sg_letter by reflexivity. cbn [app].
      rewrite ascii_runes_app, sg_in by (eapply inSeg_numbers, seps_numbers; eauto).
      rewrite sg_fresh by exact Hfr. rewrite Hsg. reflexivity.
    + constructor; [|exact HF]. exists "z"%char, t. repeat split; auto. apply seps_numbers; assumption.
    + reflexivity.
    + cbn [all_chars]. rewrite all_chars_app, Hasc, (seps_ascii _ Ht). reflexivity.
Qed.

Theorem compilePath_steps (fadd_comm : forall a b, fadd E a b = fadd E b a)
  (arc : point -> arc_args E -> point -> list op -> point -> Prop) lead body ks (c : pcur) :
  (forall s a q p, exists o e, arc_call (offc c) s a q p = Ret (p ++ o, e) /\ arc s a q o e) ->
  seps lead = true -> spells_steps E body ks -> steps_close E false ks = true ->
  exists c' o s, compilePath (lead ++ body) c = (c', Ret tt)
    /\ drawn E arc (offc c) (pen0 E) ks o s /\ pc_path c' = o /\ place c' = at_ s /\ pc_log c' = pc_log c.
Proof.
  intros Harc Hlead Hbody Hcl. rewrite compilePath_segments. unfold bind.
  destruct (steps_split body ks Hbody) as (segs & Hsg & HF & _ & Hasc).
  assert (Hs : segments (E := E) (lead ++ body) = segs).
  { unfold segments. rewrite runes_ascii.
    - rewrite ascii_runes_app, sg_in; [exact Hsg|]. revert Hlead. apply all_chars_imp, inSeg_sep.
    - rewrite all_chars_app, (seps_ascii _ Hlead), Hasc. reflexivity. }
  rewrite Hs.
  destruct (steps_good fadd_comm (offc c) arc Harc segs ks HF (pen0 E) (fst (pinit c)) (sim_init (offc c) c eq_refl) Hcl)
    as (c' & o & s' & H1 & H2 & H2' & H3 & H4 & H5).
  exists c', o, s'. change (pinit c) with (fst (pinit c), @Ret unit tt). cbv iota beta. rewrite H1.
  split; [reflexivity|]. split; [exact H2'|]. split; [exact H3|]. split; [apply H2|exact H5].
Qed.
End Generic.

(** ** over the reals *)
Local Open Scope R_scope.
Lemma nseg_pos (d : R) : (1 <= Ztrunc (Rabs d / (PI / 8)) + 1)%Z.
Proof.
  pose proof PI_RGT_0. assert (0 <= Rabs d / (PI / 8)).
  { unfold Rdiv. apply Rmult_le_pos; [apply Rabs_pos|]. left. apply Rinv_0_lt_compat. lra. }
  pose proof (Ztrunc_le 0 (Rabs d / (PI / 8)) H0) as K. change 0%R with (IZR 0) in K. rewrite Ztrunc_IZR in K. lia.
Qed.
Lemma nseg_bound (d : R) : Rabs d < IZR (Ztrunc (Rabs d / (PI / 8)) + 1) * (PI / 8).
Proof.
  pose proof PI_RGT_0. assert (H0 : 0 <= Rabs d / (PI / 8)).
  { unfold Rdiv. apply Rmult_le_pos; [apply Rabs_pos|]. left. apply Rinv_0_lt_compat. lra. }
  rewrite Ztrunc_floor by exact H0. rewrite plus_IZR.
  pose proof (Zfloor_ub (Rabs d / (PI / 8))) as K.
  apply (Rmult_lt_compat_r (PI / 8)) in K; [|lra].
  replace (Rabs d / (PI / 8) * (PI / 8)) with (Rabs d) in K by (field; lra). exact K.
Qed.
Definition arc_real (off s : R * R) (a : R * R * R * R * R) (q : R * R) (o : list op) (e : R * R) : Prop :=
  let '(rx, ry, deg, fa, fs) := a in
  e = q /\ (exists cs b c, o = cs ++ [OpCubicTo b c (grid_R q)] /\ Forall is_cubic cs)
  /\ (off = (0, 0) -> 0 < rx -> 0 < ry -> s <> q ->
      forall large sweep : bool, (large = true <-> fa <> 0) -> (sweep = true <-> fs <> 0) -> svg_arc s rx ry deg large sweep q o).
Lemma feqb_flag O (x : R) (b : bool) : (b = true <-> x <> 0) -> feqb (RealEnv O) x (fnum (RealEnv O) 0) = negb b.
Proof.
  intros H. rewrite fnum_real. cbn [feqb RealEnv]. destruct (Req_EM_T x 0) as [E|E], b; try reflexivity; exfalso.
  - apply H; auto.
  - apply H in E. discriminate.
Qed.
Lemma addArc_ends O (ra rb deg fa fs : R) (q : R * R) (cx cy sx sy : R) p more :
  exists o, addArc (E := RealEnv O) (ra :: rb :: deg :: fa :: fs :: fst q :: snd q :: more) cx cy sx sy p = Ret (p ++ o, q)
    /\ (exists cs b c, o = cs ++ [OpCubicTo b c (grid_R q)] /\ Forall is_cubic cs).
Proof.
  unfold addArc. cbn [idx nth_error obind]. cbv zeta. rewrite piOver8_real.
  match goal with |- context [adjustEta ?a ?b ?c ?e] => set (d := adjustEta a b c e) end.
  change (f_to_int (RealEnv O) (fdiv (RealEnv O) (fabs (RealEnv O) d) (PI / 8))) with (Ztrunc (Rabs d / (PI / 8))).
  set (segs := (Ztrunc (Rabs d / (PI / 8)) + 1)%Z).
  pose proof (nseg_pos d) as Hs1. fold segs in Hs1.
  destruct (ellipsePrime _ _ _ _ _) as [u v].
  match goal with |- context [ellSegs (Z.to_nat ?sg) 1 ?sg ?ra ?rb ?ex ?ey ?kx ?ky ?sT ?cT ?eta ?de ?al ?lx ?ly ?dx ?dy ?q] =>
    destruct (ellSegs_arc (E := RealEnv O) (Z.to_nat sg) 1 sg ra rb ex ey kx ky sT cT eta de al lx ly dx dy q) as (cs & H1 & H2);
    [right; rewrite Z2Nat.id; lia|] end.
  rewrite H1. clear H1. destruct (Z.to_nat segs) as [|n] eqn:En; [lia|].
  exists cs. split; [destruct q; reflexivity|].
  destruct H2 as (pre & b & c & -> & HF). exists pre, b, c. split; [|exact HF].
  unfold grid. rewrite <- surjective_pairing. repeat f_equal. destruct q. apply toFixed_real.
Qed.
Lemma arc_call_ends O (off s : R * R) (a : R * R * R * R * R) (q : R * R) p :
  exists o, arc_call (E := RealEnv O) off s a q p = Ret (p ++ o, q)
    /\ (exists cs b c, o = cs ++ [OpCubicTo b c (grid_R q)] /\ Forall is_cubic cs).
Proof.
  destruct a as [[[[rx ry] deg] fa] fs]. unfold arc_call.
  destruct (findEllipseCenter _ _ _ _ _ _ _ _ _) as [[cx cy] [ra rb]]. apply addArc_ends.
Qed.
Lemma addArc_R O (ra rb deg fa fs ex ey cx cy sx sy : R) (large sweep : bool) p :
  (large = true <-> fa <> 0) -> (sweep = true <-> fs <> 0) ->
  exists big,
  addArc (E := RealEnv O) [ra; rb; deg; fa; fs; ex; ey] cx cy sx sy p =
  let rot := degrees deg in
  let t := eta_of cx cy ra rb rot (sx, sy) in
  let u := eta_of cx cy ra rb rot (ex, ey) in
  let d : R := adjustEta (E := RealEnv O) (u - t) big large sweep in
  let n := (Ztrunc (Rabs d / (PI / 8)) + 1)%Z in
  let v := ell_dir ra rb rot t in
  Ret (ellSegs (E := RealEnv O) (Z.to_nat n) 1 n ra rb ex ey cx cy (sin rot) (cos rot) t (d / IZR n) (handle (d / IZR n)) sx sy (fst v) (snd v) p).
Proof.
  intros HL HS. unfold addArc. cbn [idx nth_error obind]. cbv zeta.
  rewrite handle_real, piOver8_real, (feqb_flag O fa large HL), (feqb_flag O fs sweep HS), !negb_involutive.
  rewrite !fnum_real.
  change (fdiv (RealEnv O) (fmul (RealEnv O) deg (fpi (RealEnv O))) (IZR 180)) with (degrees deg).
  eexists. change (fsin (RealEnv O)) with sin. change (fcos (RealEnv O)) with cos. rewrite prime_real.
  set (v := ell_dir ra rb (degrees deg) _). unfold eta_of. cbn [fst snd].
  match goal with |- _ = Ret (ellSegs _ _ _ _ _ _ _ _ _ _ _ _ _ _ _ _ (fst ?w) _ _) => change w with v end.
  destruct v as [vx vy]. reflexivity.
Qed.
Lemma arc_call_svg O (s : R * R) (rx ry deg fa fs : R) (q : R * R) (large sweep : bool) p :
  0 < rx -> 0 < ry -> s <> q -> (large = true <-> fa <> 0) -> (sweep = true <-> fs <> 0) ->
  exists o, arc_call (E := RealEnv O) (0, 0) s (rx, ry, deg, fa, fs) q p = Ret (p ++ o, q)
    /\ svg_arc s rx ry deg large sweep q o.
Proof.
  intros Hrx Hry Hne HL HS. destruct s as [sx sy], q as [ex ey]. unfold arc_call.
  rewrite (feqb_flag O fs sweep HS), (feqb_flag O fa large HL). cbn [fst snd].
  rewrite fnum_real.
  change (fdiv (RealEnv O) (fmul (RealEnv O) deg (fpi (RealEnv O))) (IZR 180)) with (degrees deg).
  destruct (center_facts O rx ry (degrees deg) sx sy ex ey (negb sweep) (negb large) Hrx Hry Hne)
    as (cx & cy & k & E1 & Hk & Hmin & HoS & HoE & Hsign).
  match goal with |- context [let '(_, _) := ?x in _] => replace x with ((cx, cy), (k * rx, k * ry)) by (symmetry; exact E1) end.
  set (rot := degrees deg) in *. set (ra := k * rx) in *. set (rb := k * ry) in *.
  assert (Ha : 0 < ra) by (unfold ra; nra). assert (Hb : 0 < rb) by (unfold rb; nra).
  pose proof (eta_dir cx cy ra rb rot Ha Hb _ HoS) as [CS SS]. pose proof (eta_dir cx cy ra rb rot Ha Hb _ HoE) as [CE SE].
  pose proof (eta_at cx cy ra rb rot Ha Hb _ HoS) as AS. pose proof (eta_at cx cy ra rb rot Ha Hb _ HoE) as AE.
  pose proof (eta_range cx cy ra rb rot (sx, sy)) as RS. pose proof (eta_range cx cy ra rb rot (ex, ey)) as RE.
  set (t := eta_of cx cy ra rb rot (sx, sy)) in *. set (u := eta_of cx cy ra rb rot (ex, ey)) in *.
  destruct (addArc_R O ra rb deg fa fs ex ey (cx + 0) (cy + 0) (sx + 0) (sy + 0) large sweep p HL HS) as (big & E2).
  rewrite !Rplus_0_r in E2. cbv zeta in E2. fold rot t u in E2.
  match goal with |- context [addArc ?l ?x1 ?x2 ?x3 ?x4 p] => change (addArc l x1 x2 x3 x4 p) with (addArc (E := RealEnv O) [ra; rb; deg; fa; fs; ex; ey] (cx + 0) (cy + 0) (sx + 0) (sy + 0) p) end.
  rewrite !Rplus_0_r. rewrite E2. clear E2 E1.
  assert (Htu : u - t <> 0).
  { intros E. apply Hne. rewrite <- AS, <- AE. f_equal. lra. }
  destruct (adjust_facts O (u - t) big large sweep) as [Hrng Hturn]; [lra|exact Htu|].
  set (d := adjustEta (E := RealEnv O) (u - t) big large sweep) in *. change (F (RealEnv O)) with R in *.
  clearbody d. destruct (turn_cos d (u - t) Hturn) as [Cd Sd].
  destruct (sum_trig t d u Cd Sd) as [Ct St].
  pose proof (nseg_pos d) as Hs1. pose proof (nseg_bound d) as Hs2.
  set (n := (Ztrunc (Rabs d / (PI / 8)) + 1)%Z) in *. clearbody n.
  assert (Hn : IZR n <> 0) by (apply not_0_IZR; lia).
  assert (Aend : ell_at cx cy ra rb rot (t + d) = (ex, ey)).
  { rewrite <- AE. apply ell_period; assumption. }
  pose proof (segs_real O ra rb ex ey cx cy rot t (d / IZR n) n) as HR.
  replace (t + d / IZR n * IZR n) with (t + d) in HR by (field; exact Hn).
  specialize (HR Aend Hs1 (Z.to_nat n) 0%nat (sx, sy) (ell_dir ra rb rot t) p).
  cbn [INR Z.of_nat Z.add fst snd] in HR. rewrite Rmult_0_l, Rplus_0_r in HR.
  rewrite HR; [|rewrite Z2Nat.id; lia|symmetry; exact AS|reflexivity].
  exists (pieces cx cy ra rb rot t d (Z.to_nat n)). split.
  { f_equal. f_equal.
    - f_equal. unfold pieces. rewrite INR_IZR_INZ, Z2Nat.id by lia. reflexivity.
    - destruct (Z.to_nat n) eqn:En; [lia|reflexivity]. }
  exists k, cx, cy, t, d, (Z.to_nat n). fold rot ra rb.
  split; [exact Hk|]. split; [exact Hmin|]. split; [exact AS|]. split; [exact Aend|]. split; [exact Hrng|].
  split; [|split; [rewrite INR_IZR_INZ, Z2Nat.id by lia; exact Hs2|reflexivity]].
  assert (Hsin : sin d * (ra * rb) = ux cx cy rot (sx, sy) * uy cx cy rot (ex, ey) - uy cx cy rot (sx, sy) * ux cx cy rot (ex, ey)).
  { rewrite Sd, sin_minus, CS, SS, CE, SE. field. lra. }
  cbv zeta in Hsign. rewrite <- Hsin in Hsign. assert (Hab : 0 < ra * rb) by nra.
  clear - Hsign Hab Hrng. destruct sweep, large; cbn [agree negb andb orb] in Hsign; cbn [negb] in Hrng.
  - rewrite Rabs_pos_eq by lra. apply sin_neg_big; [lra|]. nra.
  - rewrite Rabs_pos_eq by lra. apply sin_pos_small; [lra|]. nra.
  - rewrite Rabs_left by lra. apply sin_neg_big; [lra|]. rewrite sin_neg. nra.
  - rewrite Rabs_left by lra. apply sin_pos_small; [lra|]. rewrite sin_neg. nra.
Qed.
Lemma arc_call_real O (off s : R * R) (a : R * R * R * R * R) (q : R * R) p :
  exists o e, arc_call (E := RealEnv O) off s a q p = Ret (p ++ o, e) /\ arc_real off s a q o e.
Proof.
  destruct (arc_call_ends O off s a q p) as (o & H1 & H2). exists o, q. split; [exact H1|].
  destruct a as [[[[rx ry] deg] fa] fs]. split; [reflexivity|]. split; [exact H2|].
  intros -> Hx Hy Hn large sweep HL HS.
  destruct (arc_call_svg O s rx ry deg fa fs q large sweep p Hx Hy Hn HL HS) as (o' & H3 & H4).
  rewrite H1 in H3. injection H3 as H3. apply app_inv_head in H3. subst o'. exact H4.
Qed.

(** ** two arcs in one command *)
Lemma segA_two O (rx ry rot fa fs rx2 ry2 rot2 fa2 fs2 : R) (q q2 : R * R) (c : pcur (RealEnv O)) :
  pc_points c = [rx; ry; rot; fa; fs; fst q; snd q; rx2; ry2; rot2; fa2; fs2; fst q2; snd q2] ->
  exists ps o, segA (E := RealEnv O) false 14 c = (set_place (E := RealEnv O) (fst q) (snd q) (set_path (pc_path c ++ o) (set_points (E := RealEnv O) ps c)), Ret tt)
    /\ (exists cs b d, o = cs ++ [OpCubicTo b d (grid_R q)] /\ Forall is_cubic cs).
Proof.
  intros Hp.
  assert (HR : requireSets 7 false c = (c, Ret tt)).
  { unfold requireSets, hasSetsOrMore, points, gets, bind. rewrite Hp. reflexivity. }
  unfold segA. rewrite (bind_step _ _ _ _ _ HR). change (14 - 6)%nat with 8%nat. cbn [loop Nat.ltb Nat.leb Nat.add].
  assert (H1 : exists ps o, addArcFromA (E := RealEnv O) 0 c = (set_place (E := RealEnv O) (fst q) (snd q) (set_path (pc_path c ++ o) (set_points (E := RealEnv O) ps c)), Ret tt)
     /\ (exists cs b d, o = cs ++ [OpCubicTo b d (grid_R q)] /\ Forall is_cubic cs)
     /\ exists x y, ps = [x; y; rot; fa; fs; fst q; snd q; rx2; ry2; rot2; fa2; fs2; fst q2; snd q2]).
  { unfold addArcFromA, pnt, bind, gets, lift. cbn [Nat.add]. rewrite Hp. cbn [idx nth_error].
    destruct (findEllipseCenter _ _ _ _ _ _ _ _ _) as [[cx cy] [ra rb]]. cbn [upd Nat.add obind]. unfold modify.
    match goal with |- context [addArc (_ :: _ :: _ :: _ :: _ :: _ :: _ :: ?more) ?a ?b ?d ?e ?p] =>
      destruct (addArc_ends O ra rb rot fa fs q a b d e p more) as (o & K1 & K2) end.
    eexists _, o. split; [|split; [exact K2|]].
    - match goal with |- context [addArc ?l ?a ?b ?d ?e ?p] => replace (addArc l a b d e p) with (Ret (A := path * (R * R)) (p ++ o, q)) by (symmetry; exact K1) end.
      destruct q. reflexivity.
    - eexists _, _. reflexivity. }
  destruct H1 as (ps & o & H1 & He & x & y & Eps).
  unfold bind at 1 2. cbv beta. unfold ret at 1. unfold bind at 1. unfold bind at 1. rewrite H1.
  set (c1 := set_place (E := RealEnv O) (fst q) (snd q) (set_path (pc_path c ++ o) (set_points (E := RealEnv O) ps c))).
  assert (H2 : exists ps' o', addArcFromA (E := RealEnv O) 7 c1 = (set_place (E := RealEnv O) (fst q) (snd q) (set_path (pc_path c1 ++ o') (set_points (E := RealEnv O) ps' c1)), Ret tt)
     /\ (exists cs b d, o' = cs ++ [OpCubicTo b d (grid_R q)] /\ Forall is_cubic cs)).
  { assert (Hp1 : pc_points c1 = [x; y; rot; fa; fs; fst q; snd q; rx2; ry2; rot2; fa2; fs2; fst q2; snd q2]) by exact Eps.
    clearbody c1. unfold addArcFromA, pnt, bind, gets, lift. cbn [Nat.add]. rewrite Hp1. cbn [idx nth_error].
    destruct (findEllipseCenter _ _ _ _ _ _ _ _ _) as [[cx cy] [ra rb]]. cbn [upd Nat.add obind]. unfold modify.
    match goal with |- context [addArc (_ :: _ :: _ :: _ :: _ :: _ :: _ :: ?more) ?a ?b ?d ?e ?p] =>
      destruct (addArc_ends O x y rot fa fs q a b d e p more) as (o' & K1 & K2) end.
    eexists _, o'. split; [|exact K2].
    match goal with |- context [addArc ?l ?a ?b ?d ?e ?p] => replace (addArc l a b d e p) with (Ret (A := path * (R * R)) (p ++ o', q)) by (symmetry; exact K1) end.
    destruct q. reflexivity. }
  destruct H2 as (ps' & o' & H2 & cs' & b' & d' & -> & HF'). destruct He as (cs & b & d & -> & HF).
  exists ps', ((cs ++ [OpCubicTo b d (grid_R q)]) ++ cs' ++ [OpCubicTo b' d' (grid_R q)]). split.
  - unfold ret at 1. rewrite H2. subst c1. cbn [pc_path set_place set_path]. rewrite <- app_assoc. destruct c; reflexivity.
  - exists (cs ++ [OpCubicTo b d (grid_R q)] ++ cs'), b', d'. rewrite !app_assoc. split; [reflexivity|].
    repeat (apply Forall_app; split); auto. constructor; [exact I|constructor].
Qed.
Lemma two_arcs_text O t0 t (p q q2 : R * R) (rx ry rot fa fs rx2 ry2 rot2 fa2 fs2 : R) (c : pcur (RealEnv O)) :
  spells_numbers (RealEnv O) t0 [fst p; snd p] ->
  spells_numbers (RealEnv O) t [rx; ry; rot; fa; fs; fst q; snd q; rx2; ry2; rot2; fa2; fs2; fst q2; snd q2] ->
  exists c', compilePath (String "M" (t0 ++ String "A" t)) c = (c', Ret tt) /\ place c' = q
    /\ exists pre b d, pc_path c' = pre ++ [OpCubicTo b d (grid_R q)].
Proof.
  intros H0 H1. rewrite compilePath_segments. unfold bind.
  assert (Hs : segments (E := RealEnv O) (String "M" (t0 ++ String "A" t)) = [String "M" t0; String "A" t]).
  { unfold segments. rewrite runes_ascii.
    - cbn [ascii_runes]. rewrite sg_letter by reflexivity. cbn [app].
      rewrite ascii_runes_app, sg_in by (eapply inSeg_numbers; eauto). cbn [ascii_runes].
      rewrite sg_letter by reflexivity. cbn [app]. f_equal.
      rewrite <- (app_nil_r (ascii_runes t)), sg_in by (eapply inSeg_numbers; eauto). reflexivity.
    - cbn [all_chars]. rewrite all_chars_app, (spells_numbers_ascii _ _ H0). cbn [all_chars]. rewrite (spells_numbers_ascii _ _ H1). reflexivity. }
  rewrite Hs. change (pinit c) with (fst (pinit c), @Ret unit tt). cbv iota beta. cbn [mapM]. unfold bind.
  destruct (addSeg_good (E := RealEnv O) Rplus_comm (offc c) (String "M" t0) (MoveTo (E := RealEnv O) false p []) (pen0 (RealEnv O)) (fst (pinit c))) as (c1 & K1 & K2 & K3 & _).
  { exists "M"%char, t0. repeat split; auto. } { apply sim_init. reflexivity. } { discriminate. }
  rewrite K1. rewrite addSeg_eq, (numbers_spelled _ _ H1). cbn [fst snd].
  destruct (segA_two O rx ry rot fa fs rx2 ry2 rot2 fa2 fs2 q q2 (set_points (E := RealEnv O) [rx; ry; rot; fa; fs; fst q; snd q; rx2; ry2; rot2; fa2; fs2; fst q2; snd q2] c1) eq_refl)
    as (ps & o & L1 & cs & b & d & -> & _).
  unfold bind. cbn [length].
  change (segSwitch (E := RealEnv O) "A" 14) with (segA (E := RealEnv O) false 14).
  match goal with |- context [segA false 14 ?x] => replace (segA false 14 x) with (segA (E := RealEnv O) false 14 (set_points (E := RealEnv O) [rx; ry; rot; fa; fs; fst q; snd q; rx2; ry2; rot2; fa2; fs2; fst q2; snd q2] c1)) by reflexivity end.
  rewrite L1. unfold modify, ret. eexists. split; [reflexivity|]. split; [destruct q; reflexivity|].
  eexists _, b, d. cbn [pc_path set_lastKey set_place set_path]. rewrite app_assoc. reflexivity.
Qed.
Theorem arcs_end_real O lead body (ks : list (step (RealEnv O))) (c : pcur (RealEnv O)) :
  seps lead = true -> spells_steps (RealEnv O) body ks -> steps_close (RealEnv O) false ks = true ->
  exists c' o s, compilePath (lead ++ body) c = (c', Ret tt)
    /\ drawn (RealEnv O) (fun _ _ q o e => ends_at (RealEnv O) q o /\ e = q) (pc_curX c, pc_curY c) (pen0 (RealEnv O)) ks o s
    /\ pc_path c' = o /\ (pc_placeX c', pc_placeY c') = at_ s /\ pc_log c' = pc_log c.
Proof.
  apply (compilePath_steps (E := RealEnv O) Rplus_comm (fun _ _ q o e => ends_at (RealEnv O) q o /\ e = q)).
  intros s a q p. destruct (arc_call_ends O (offc c) s a q p) as (o & H1 & cs & b & d & -> & HF). exists (cs ++ [OpCubicTo b d (grid_R q)]), q.
  split; [exact H1|]. split; [|reflexivity]. exists cs, b, d. split; [|exact HF]. repeat f_equal. symmetry. unfold grid. destruct q. apply toFixed_real.
Qed.
Theorem arcs_svg_real O lead body (ks : list (step (RealEnv O))) (c : pcur (RealEnv O)) :
  pc_curX c = 0 -> pc_curY c = 0 ->
  seps lead = true -> spells_steps (RealEnv O) body ks -> steps_close (RealEnv O) false ks = true ->
  exists c' o s, compilePath (lead ++ body) c = (c', Ret tt)
    /\ drawn (RealEnv O) (fun s a q o e => let '(rx, ry, deg, fa, fs) := a in
         e = q /\ (0 < rx -> 0 < ry -> s <> q -> forall large sweep : bool,
           (large = true <-> fa <> 0) -> (sweep = true <-> fs <> 0) -> svg_arc s rx ry deg large sweep q o))
       (0, 0) (pen0 (RealEnv O)) ks o s
    /\ pc_path c' = o /\ (pc_placeX c', pc_placeY c') = at_ s /\ pc_log c' = pc_log c.
Proof.
  intros H1 H2. assert (Ho : offc c = (0, 0)) by (unfold offc; rewrite H1, H2; reflexivity).
  rewrite <- Ho.
  apply (compilePath_steps (E := RealEnv O) Rplus_comm (fun s a q o e => let '(rx, ry, deg, fa, fs) := a in
         e = q /\ (0 < rx -> 0 < ry -> s <> q -> forall large sweep : bool,
           (large = true <-> fa <> 0) -> (sweep = true <-> fs <> 0) -> svg_arc s rx ry deg large sweep q o))).
  intros s a q p. destruct (arc_call_real O (offc c) s a q p) as (o & e & K1 & K2). exists o, e. split; [exact K1|].
  destruct a as [[[[rx ry] deg] fa] fs]. destruct K2 as (K2 & _ & K3). split; [exact K2|]. intros. apply K3; auto.
Qed.

(** * ProofsPath3: path data never panics; the result does not depend on earlier paths *)
From Coq Require Import Lia.
From Verif Require Export Logic ProofsPath2.
Local Open Scope go_scope.

Section P3.
Context {E : Env}.
Notation F := (F E).
Notation pcur := (pcur E).
Notation P := (@P E).
Notation point := (point E).
Notation p1 := (p1 E). Notation p2 := (p2 E). Notation p3 := (p3 E).

Lemma bind_step {S A B} (m : M S A) (k : A -> M S B) s s' a : m s = (s', Ret a) -> bind m k s = k a s'.
Proof. unfold bind. now intros ->. Qed.

Lemma sets1 m : forall l : list F, length l = m * 2 -> exists ps, l = flat_map p1 ps /\ length ps = m.
Proof.
  induction m as [|m IH]; intros l H.
  - destruct l; [|discriminate]. exists []; auto.
  - destruct l as [|x [|y l]]; try discriminate. destruct (IH l) as (ps & -> & Hp); [cbn in H; lia|].
    exists ((x, y) :: ps). cbn. auto.
Qed.
Lemma sets2 m : forall l : list F, length l = m * 4 -> exists ps, l = flat_map p2 ps /\ length ps = m.
Proof.
  induction m as [|m IH]; intros l H.
  - destruct l; [|discriminate]. exists []; auto.
  - destruct l as [|x [|y [|u [|v l]]]]; try discriminate. destruct (IH l) as (ps & -> & Hp); [cbn in H; lia|].
    exists (((x, y), (u, v)) :: ps). cbn. auto.
Qed.
Lemma sets3 m : forall l : list F, length l = m * 6 -> exists ps, l = flat_map p3 ps /\ length ps = m.
Proof.
  induction m as [|m IH]; intros l H.
  - destruct l; [|discriminate]. exists []; auto.
  - destruct l as [|a [|b [|x [|y [|u [|v l]]]]]]; try discriminate. destruct (IH l) as (ps & -> & Hp); [cbn in H; lia|].
    exists (((a, b), (x, y), (u, v)) :: ps). cbn. auto.
Qed.

Lemma count_sets k sz n : set_size k = Some (S sz) -> good_count k n = true -> exists m, n = m * S sz /\ 0 < m.
Proof.
  unfold good_count. intros -> H. apply andb_prop in H as [H1 H2].
  apply negb_true_iff, Nat.eqb_neq in H1. apply Nat.eqb_eq in H2.
  apply Nat.mod_divides in H2 as [m Hm]; [|lia]. exists m. lia.
Qed.

(** ** arcs *)
Lemma pnt_ok n (c : pcur) : n < length (pc_points c) -> exists x, pnt n c = (c, Ret x) /\ idx (pc_points c) n = Ret x.
Proof. intros H. destruct (idx_ok (pc_points c) n H) as [x Hx]. exists x. unfold pnt. rewrite Hx. auto. Qed.

Lemma addArc_ok (ps : list F) cx cy px py p : 7 <= length ps -> exists r, addArc ps cx cy px py p = Ret r.
Proof.
  intros H. do 7 (destruct ps as [|? ps]; [cbn in H; lia|]). unfold addArc. cbn [idx nth_error obind].
  destruct (ellipsePrime _ _ _ _ _) as [u v]. eauto.
Qed.

Lemma addPlaceAt_ok i (c : pcur) : i + 1 < length (pc_points c) ->
  exists ps, addPlaceAt i c = (set_points ps c, Ret tt) /\ length ps = length (pc_points c).
Proof.
  intros H. unfold addPlaceAt, bind. destruct (pnt_ok i c) as (x & -> & _); [lia|].
  unfold gets, lift.
  destruct (upd_ok (pc_points c) i (fadd E x (pc_placeX c))) as (l' & -> & Hl); [lia|]. unfold modify.
  destruct (pnt_ok (i + 1) (set_points l' c)) as (y & -> & _); [cbn; lia|].
  destruct (upd_ok (pc_points (set_points l' c)) (i + 1) (fadd E y (pc_placeY (set_points l' c)))) as (l'' & -> & Hl2); [cbn; lia|].
  exists l''. cbn in *. split; [reflexivity|lia].
Qed.
Lemma addArcFromA_ok i (c : pcur) : i + 6 < length (pc_points c) ->
  exists ps p x y, addArcFromA i c = (set_place x y (set_path p (set_points ps c)), Ret tt)
    /\ length ps = length (pc_points c).
Proof.
  intros H. unfold addArcFromA, bind.
  destruct (pnt_ok i c) as (p0 & -> & _); [lia|]. destruct (pnt_ok (i + 1) c) as (q1 & -> & _); [lia|].
  destruct (pnt_ok (i + 2) c) as (q2 & -> & _); [lia|]. destruct (pnt_ok (i + 5) c) as (q5 & -> & _); [lia|].
  destruct (pnt_ok (i + 6) c) as (q6 & -> & _); [lia|]. destruct (pnt_ok (i + 4) c) as (q4 & -> & _); [lia|].
  destruct (pnt_ok (i + 3) c) as (q3 & -> & _); [lia|]. unfold gets, lift.
  match goal with |- context [let '(_, _) := ?x in _] => destruct x as [[cx cy] [ra rb]] end.
  destruct (upd_ok (pc_points c) i ra) as (l' & -> & Hl); [lia|].
  destruct (upd_ok l' (i + 1) rb) as (l'' & -> & Hl2); [lia|]. unfold modify.
  match goal with |- context [addArc ?a ?b ?d ?e ?f ?g] => destruct (addArc_ok a b d e f g) as [[p [lx ly]] ->] end; [lia|].
  exists l'', p, lx, ly. split; [reflexivity|lia].
Qed.

Lemma segA_loop rel n : forall fuel i (c : pcur), length (pc_points c) = n -> (n - 6) - i <= fuel ->
  exists c', loop fuel i 7 (n - 6) (fun i => (if (rel : bool) then addPlaceAt (i + 5) else ret tt) ;; addArcFromA i) c
     = (c', Ret tt).
Proof.
  induction fuel as [|fuel IH]; intros i c Hn Hf; cbn [loop];
    destruct (Nat.ltb_spec i (n - 6)) as [Hi|Hi]; try (exists c; reflexivity); [lia|].
  assert (HA : exists ps, (if rel then addPlaceAt (i + 5) else ret tt) c = (set_points ps c, Ret tt)
                 /\ length ps = length (pc_points c)).
  { destruct rel; [apply addPlaceAt_ok; lia|]. exists (pc_points c). split; [destruct c; reflexivity|reflexivity]. }
  destruct HA as (ps & HA & HL).   destruct (addArcFromA_ok i (set_points ps c)) as (ps' & p & x & y & HB & HL2); [cbn; lia|].
  rewrite (bind_step _ _ _ _ _ (eq_trans (bind_step _ _ _ _ _ HA) HB)). apply IH; cbn in *; lia.
Qed.

Lemma segA_ok rel (c : pcur) : good_count "A" (length (pc_points c)) = true ->
  exists c', segA rel (length (pc_points c)) c = (c', Ret tt).
Proof.
  intros H. destruct (count_sets "A" 6 _ eq_refl H) as (m & Hm & Hpos).
  assert (HR : requireSets 7 false c = (c, Ret tt)).
  { unfold requireSets, hasSetsOrMore, points, gets, bind.
    destruct (Nat.leb_spec 7 (length (pc_points c))); [|lia].
    rewrite Hm. rewrite Nat.mod_mul by lia. reflexivity. }
  unfold segA. rewrite (bind_step _ _ _ _ _ HR).
  apply segA_loop; lia.
Qed.

(** ** every case returns *)
Lemma segSwitch_fine k (c : pcur) : fine (snd (segSwitch k (length (pc_points c)) c)).
Proof.
  destruct (set_size k) as [sz|] eqn:Hk.
  2:{ (* unknown *)
    assert (segSwitch k (length (pc_points c)) = segUnknown k) as ->.
    { unfold segSwitch, eqk.
      repeat match goal with |- context [Ascii.eqb k ?x] =>
        let H := fresh in destruct (Ascii.eqb k x) eqn:H;
        [apply Ascii.eqb_eq in H; subst k; discriminate|] end. reflexivity. }
    unfold segUnknown, gets, bind. destruct (pc_mode c); exact I. }
  destruct (good_count k (length (pc_points c))) eqn:Hg.
  2:{ rewrite (segSwitch_bad k sz c Hk Hg). exact I. }
  pose proof (set_size_known k sz Hk) as HK. cbn in HK. 
  assert (Hps : forall m, length (pc_points c) = m -> 0 < m -> pc_points c <> []) by (intros m Hm H0 Hx; rewrite Hx in Hm; cbn in Hm; lia).
  pose (z := (fnum E 0, fnum E 0) : point).
  repeat (destruct HK as [HK|HK]; [subst k|]); try destruct HK; clear sz Hk.
  1,2: unfold good_count in Hg; cbn in Hg; apply Nat.eqb_eq in Hg;
       change (fine (snd (segZ c))); unfold segZ, points, gets, bind; destruct (pc_points c); [|discriminate];
       destruct (pc_inPath c); exact I.
  1-4: destruct (count_sets "H" 0 _ eq_refl Hg) as (m & Hm & Hpos);
       assert (Hne : pc_points c <> []) by (eapply Hps; eauto; lia).
  1: change (fine (snd (segH false (length (pc_points c)) c))); rewrite (segH_eq false _ (fst z)) by auto; exact I.
  1: change (fine (snd (segH true (length (pc_points c)) c))); rewrite (segH_eq true _ (fst z)) by auto; exact I.
  1: change (fine (snd (segV false (length (pc_points c)) c))); rewrite (segV_eq false _ (fst z)) by auto; exact I.
  1: change (fine (snd (segV true (length (pc_points c)) c))); rewrite (segV_eq true _ (fst z)) by auto; exact I.
  1-6: destruct (count_sets "M" 1 _ eq_refl Hg) as (m & Hm & Hpos);
       destruct (sets1 m _ Hm) as (ps & Hp & Hl);
       assert (Hne : ps <> []) by (intros ->; cbn in Hl; lia).
  7-10: destruct (count_sets "Q" 3 _ eq_refl Hg) as (m & Hm & Hpos);
       destruct (sets2 m _ Hm) as (ps & Hp & Hl);
       assert (Hne : ps <> []) by (intros ->; cbn in Hl; lia).
  11-12: destruct (count_sets "C" 5 _ eq_refl Hg) as (m & Hm & Hpos);
       destruct (sets3 m _ Hm) as (ps & Hp & Hl);
       assert (Hne : ps <> []) by (intros ->; cbn in Hl; lia).
  1: { change (fine (snd (segM false (length (pc_points c)) c))).
       destruct (abs1 false (place c) ps) eqn:Ha; [destruct ps; [congruence|destruct (abs1_ne _ _ _ _ Ha)]|].
       erewrite segM_eq by eauto. exact I. }
  1: { change (fine (snd (segM true (length (pc_points c)) c))).
       destruct (abs1 true (place c) ps) eqn:Ha; [destruct ps; [congruence|destruct (abs1_ne _ _ _ _ Ha)]|].
       erewrite segM_eq by eauto. exact I. }
  1: change (fine (snd (segL false (length (pc_points c)) c))); rewrite (segL_eq false ps _ _ z) by auto; exact I.
  1: change (fine (snd (segL true (length (pc_points c)) c))); rewrite (segL_eq true ps _ _ z) by auto; exact I.
  1: change (fine (snd (segT "T" false (length (pc_points c)) c))); erewrite (segT_eq "T" false ps) by auto; exact I.
  1: change (fine (snd (segT "t" true (length (pc_points c)) c))); erewrite (segT_eq "t" true ps) by auto; exact I.
  1: change (fine (snd (segQ false (length (pc_points c)) c))); rewrite (segQ_eq false ps _ _ (z, z)) by auto; exact I.
  1: change (fine (snd (segQ true (length (pc_points c)) c))); rewrite (segQ_eq true ps _ _ (z, z)) by auto; exact I.
  1: change (fine (snd (segS "S" false (length (pc_points c)) c))); erewrite (segS_eq "S" false ps) by auto; exact I.
  1: change (fine (snd (segS "s" true (length (pc_points c)) c))); erewrite (segS_eq "s" true ps) by auto; exact I.
  1: change (fine (snd (segC false (length (pc_points c)) c))); rewrite (segC_eq false ps _ _ (z, z, z)) by auto; exact I.
  1: change (fine (snd (segC true (length (pc_points c)) c))); rewrite (segC_eq true ps _ _ (z, z, z)) by auto; exact I.
  1: change (fine (snd (segA false (length (pc_points c)) c))); destruct (segA_ok false c Hg) as (c' & ->); exact I.
  1: change (fine (snd (segA true (length (pc_points c)) c))); destruct (segA_ok true c Hg) as (c' & ->); exact I.
Qed.

Lemma addSeg_fine s (c : pcur) : s <> EmptyString -> fine (snd (addSeg s c)).
Proof.
  destruct s as [|k rest]; [congruence|]. intros _. rewrite addSeg_eq.
  destruct (numbers_total (E := E) rest) as [->|[e ->]]; [|exact I].
  unfold bind. pose proof (segSwitch_fine k (set_points (fst (numbers rest)) c)) as H.
  cbn [pc_points set_points] in H.
  destruct (segSwitch k _ _) as [c' []]; cbn in *; auto.
Qed.

Theorem compilePath_fine s (c : pcur) : fine (snd (compilePath s c)).
Proof.
  rewrite compilePath_segments. unfold bind. change (pinit c) with (fst (pinit c), @Ret unit tt). cbv iota beta.
  generalize (fst (pinit c)). pose proof (segments_ne (E := E) s) as Hne.
  induction Hne as [|seg segs Hs _ IH]; intros c'; [exact I|].
  cbn [mapM]. unfold bind. pose proof (addSeg_fine seg c' Hs) as H.
  destruct (addSeg seg c') as [c2 []]; cbn in *; auto.
Qed.
Lemma getPoints_fine s (c : pcur) : fine (snd (getPoints s c)).
Proof. rewrite getPoints_numbers. cbn. destruct (numbers_total (E := E) s) as [->|[e ->]]; exact I. Qed.
End P3.

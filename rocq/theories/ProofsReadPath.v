(** * ProofsReadPath: path data read with binary64 and with real numbers *)
From Coq Require Import ZArith NArith Lia Reals Lra Psatz Floats.SpecFloat.
From Flocq Require Import Core.Core IEEE754.BinarySingleNaN.
From Verif Require Import F64 RealEnv ProofsFlocq ProofsSize3 ProofsArc64 ProofsDec ProofsRect ProofsScale SpecClose ProofsClose SpecRead ProofsRead PathCur ProofsPath3 ProofsLong ProofsF64.
Local Open Scope R_scope.
Local Notation pow := (bpow radix2).

Section Read.
Context (O : Oracles) (Q : ROracles).
Notation E := (F64 O).
Notation X := (RealEnv Q).

(** ** Commands with related numbers *)
Section Rel.
Context (R : F E -> F X -> Prop).
Definition r1 (p : point E) (p' : point X) : Prop := R (fst p) (fst p') /\ R (snd p) (snd p').
Definition r2 (q : point E * point E) (q' : point X * point X) : Prop := r1 (fst q) (fst q') /\ r1 (snd q) (snd q').
Definition r3 (q : point E * point E * point E) (q' : point X * point X * point X) : Prop := r2 (fst q) (fst q') /\ r1 (snd q) (snd q').
Inductive crel : cmd E -> cmd X -> Prop :=
| cr_move rel p ps p' ps' : r1 p p' -> Forall2 r1 ps ps' -> crel (MoveTo rel p ps) (MoveTo rel p' ps')
| cr_line rel p ps p' ps' : r1 p p' -> Forall2 r1 ps ps' -> crel (LineTo rel p ps) (LineTo rel p' ps')
| cr_h rel p ps p' ps' : R p p' -> Forall2 R ps ps' -> crel (HLineTo rel p ps) (HLineTo rel p' ps')
| cr_v rel p ps p' ps' : R p p' -> Forall2 R ps ps' -> crel (VLineTo rel p ps) (VLineTo rel p' ps')
| cr_quad rel p ps p' ps' : r2 p p' -> Forall2 r2 ps ps' -> crel (QuadTo rel p ps) (QuadTo rel p' ps')
| cr_squad rel p ps p' ps' : r1 p p' -> Forall2 r1 ps ps' -> crel (SmoothQuadTo rel p ps) (SmoothQuadTo rel p' ps')
| cr_cubic rel p ps p' ps' : r3 p p' -> Forall2 r3 ps ps' -> crel (CubicTo rel p ps) (CubicTo rel p' ps')
| cr_scubic rel p ps p' ps' : r2 p p' -> Forall2 r2 ps ps' -> crel (SmoothCubicTo rel p ps) (SmoothCubicTo rel p' ps')
| cr_close : crel ClosePath ClosePath.
Lemma build1 (p' : point X) vs rest : Forall2 R vs (p1 X p' ++ rest) -> exists p vs', vs = p1 E p ++ vs' /\ r1 p p' /\ Forall2 R vs' rest.
Proof using. intros H. unfold p1 in H. cbn in H. inversion H as [|a a' l l' H1 H2]; subst. inversion H2 as [|b b' m m' H3 H4]; subst. exists (a, b), m. repeat split; assumption. Qed.
Lemma build2 (q' : point X * point X) vs rest : Forall2 R vs (p2 X q' ++ rest) -> exists q vs', vs = p2 E q ++ vs' /\ r2 q q' /\ Forall2 R vs' rest.
Proof using.
  unfold p2. rewrite <- app_assoc. intros H. apply build1 in H as (a & v1 & -> & Ha & H). apply build1 in H as (b & v2 & -> & Hb & H). exists (a, b), v2. cbn [fst snd]. rewrite <- app_assoc. repeat split; try assumption; apply Ha || apply Hb.
Qed.
Lemma build3 (q' : point X * point X * point X) vs rest : Forall2 R vs (p3 X q' ++ rest) -> exists q vs', vs = p3 E q ++ vs' /\ r3 q q' /\ Forall2 R vs' rest.
Proof using.
  unfold p3. rewrite <- app_assoc. intros H. apply build2 in H as (a & v1 & -> & Ha & H). apply build1 in H as (b & v2 & -> & Hb & H). exists (a, b), v2. cbn [fst snd]. rewrite <- app_assoc. repeat split; try assumption; apply Ha || apply Hb.
Qed.
Lemma build_list {A A'} (f : A -> list (F E)) (f' : A' -> list (F X)) (RA : A -> A' -> Prop) :
  (forall a' vs rest, Forall2 R vs (f' a' ++ rest) -> exists a vs', vs = f a ++ vs' /\ RA a a' /\ Forall2 R vs' rest) ->
  forall l' vs, Forall2 R vs (flat_map f' l') -> exists l, vs = flat_map f l /\ Forall2 RA l l'.
Proof using.
  intros Hf. induction l' as [|a' l' IH]; intros vs H; cbn in H; [inversion H; subst; exists []; split; [reflexivity|constructor]|].
  apply Hf in H as (a & v & -> & Ha & H). apply IH in H as (l & -> & Hl). exists (a :: l). split; [reflexivity|now constructor].
Qed.
Lemma build c' vs : Forall2 R vs (args X c') -> exists c, letter E c = letter X c' /\ args E c = vs /\ crel c c'.
Proof using.
  destruct c' as [rel p ps|rel p ps|rel p ps|rel p ps|rel p ps|rel p ps|rel p ps|rel p ps|]; cbn [args]; intros H.
  1,2,6: apply (build_list (p1 E) (p1 X) r1 build1) in H as (l & -> & Hl); inversion Hl as [|a b c d H1 H2]; subst.
  - exists (MoveTo rel a c). repeat split. constructor; assumption.
  - exists (LineTo rel a c). repeat split. constructor; assumption.
  - exists (SmoothQuadTo rel a c). repeat split. constructor; assumption.
  - inversion H as [|a b c d H1 H2]; subst. exists (HLineTo rel a c). repeat split. constructor; assumption.
  - inversion H as [|a b c d H1 H2]; subst. exists (VLineTo rel a c). repeat split. constructor; assumption.
  - apply (build_list (p2 E) (p2 X) r2 build2) in H as (l & -> & Hl); inversion Hl as [|a b c d H1 H2]; subst. exists (QuadTo rel a c). repeat split. constructor; assumption.
  - apply (build_list (p3 E) (p3 X) r3 build3) in H as (l & -> & Hl); inversion Hl as [|a b c d H1 H2]; subst. exists (CubicTo rel a c). repeat split. constructor; assumption.
  - apply (build_list (p2 E) (p2 X) r2 build2) in H as (l & -> & Hl); inversion Hl as [|a b c d H1 H2]; subst. exists (SmoothCubicTo rel a c). repeat split. constructor; assumption.
  - inversion H; subst. exists ClosePath. repeat split. constructor.
Qed.
Lemma crel_closes cs cs' : Forall2 crel cs cs' -> forall b, closes_open E b cs = closes_open X b cs'.
Proof using. induction 1 as [|c c' cs cs' H Hs IH]; intros b; [reflexivity|]. inversion H; subst; cbn [closes_open]; rewrite ?IH; reflexivity. Qed.
End Rel.

(** ** Reading *)
Definition rd (x : F E) (r : F X) : Prop := finite64 x /\ val x = rnd r /\ Rabs r <= pow 18.
Lemma items_read (l : items) : forall prev vs, reads_exactly Q -> legal_items prev l = true -> map (fun it => num_value X (snd it)) l = map Some vs -> Forall (fun v => Rabs v <= pow 18) vs ->
  exists ws, map (fun it => num_value E (snd it)) l = map Some ws /\ Forall2 rd ws vs.
Proof using.
  induction l as [|[sep n] l IH]; intros prev vs HQ Hl Hv Hb; destruct vs as [|v vs]; try discriminate; [exists []; split; [reflexivity|constructor]|].
  cbn [legal_items] in Hl. apply andb_prop in Hl as [Hl H4]. apply andb_prop in Hl as [Hl _]. apply andb_prop in Hl as [_ Hn]. inversion Hb as [|? ? B1 B2]; subst.
  cbn [map snd] in Hv. injection Hv as Hv Hvs. destruct (IH _ _ HQ H4 Hvs B2) as (ws & Hw & Hr).
  unfold num_value in Hv. cbn [parseFloat RealEnv fmul flit] in Hv. rewrite (HQ n Hn) in Hv. destruct (short_exp n) eqn:Hsh; [|discriminate Hv]. injection Hv as Hv. assert (Ev : num_exact n = v) by (rewrite <- Hv; cbn; field).
  destruct (read_nearest O n Hn Hsh) as (x & Hx & V & Fi & Hval). { rewrite Ev. apply Rle_trans with (1 := B1). apply bpow_le. lia. }
  exists (x :: ws). split; [cbn [map snd]; rewrite Hx, Hw; reflexivity|]. constructor; [|exact Hr]. split; [split; assumption|]. rewrite Hval, Ev. split; [reflexivity|exact B1].
Qed.
Lemma commands_read s cs' : reads_exactly Q -> spells_commands X s cs' -> (forall c v, List.In c cs' -> List.In v (args X c) -> Rabs v <= pow 18) ->
  exists cs, spells_commands E s cs /\ Forall2 (crel rd) cs cs'.
Proof using.
  intros HQ H. induction H as [|c' t s cs' Hn H IH|t s cs' Ht H IH]; intros Hb.
  - exists []. split; constructor.
  - destruct IH as (cs & Hs & Hr); [intros; eapply Hb; [right|]; eassumption|]. destruct Hn as (l & trail & -> & Hl & Htr & Hv).
    destruct (items_read l None _ HQ Hl Hv) as (ws & Hw & Hf). { apply Forall_forall. intros v Hv0. apply (Hb c'); [now left|exact Hv0]. }
    destruct (build rd c' ws Hf) as (c & Hc1 & Hc2 & Hc3). exists (c :: cs). split; [|now constructor]. rewrite <- Hc1. apply spells_cons; [|exact Hs]. exists l, trail. rewrite Hc2. auto.
  - destruct IH as (cs & Hs & Hr); [intros; eapply Hb; [right|]; eassumption|]. exists (ClosePath :: cs). split; [now apply spells_close_lower|]. constructor; [constructor|exact Hr].
Qed.

(** ** Errors *)
Definition Ep (n : Z) : Z := (3 * 2 ^ 65 * n)%Z.
Definition Ec (n : Z) : Z := (3 * 2 ^ 66 * (n * n))%Z.
Notation B := (pow 17).
Lemma ap_tight b e x r : ap b e x r -> (e <= 2 ^ 117)%Z -> Rabs r <= B -> ap 18 e x r.
Proof using.
  intros ((V & Fi & _) & H & _) He Hr. split; [split; [exact V|split; [exact Fi|]]|].
  - assert (Rabs (val x - r) <= B). { apply Rle_trans with (1 := H). apply Rle_trans with (IZR (2 ^ 117) * u100); [apply Rmult_le_compat_r; [apply Rlt_le, u_pos|]; apply IZR_le, He|]. rewrite pow_Z by lia. rewrite <- bpow_plus. apply bpow_le. lia. }
    replace (pow 18) with (B + B) by (change (pow 18) with (pow (17 + 1)); rewrite bpow_plus; change (pow 1) with 2; ring).
    pose proof (Rabs_triang (val x - r) r) as T. replace (val x - r + r) with (val x) in T by ring. lra.
  - split; [exact H|]. apply Rle_trans with (1 := Hr). apply bpow_le. lia.
Qed.
Lemma rd_ap x r : rd x r -> ap 18 (2 ^ 65) x r.
Proof using.
  intros ([V Fi] & Hv & Hr). split; [split; [exact V|split; [exact Fi|]]|].
  - rewrite Hv. apply rnd_up; [lia|exact Hr].
  - split; [|exact Hr]. rewrite Hv. apply (rnd_err 18); [lia|exact Hr].
Qed.
Notation lim := (2 ^ 20)%Z.
Lemma Ep_le n : (0 <= n <= lim)%Z -> (Ep n <= 2 ^ 117)%Z. Proof using. unfold Ep. lia. Qed.
Lemma Ec_le n : (0 <= n <= lim)%Z -> (Ec n <= 2 ^ 117)%Z. Proof using. unfold Ec. intros H. assert (n * n <= 2 ^ 40)%Z by nia. lia. Qed.
Lemma Ep_Ec n : (1 <= n)%Z -> (Ep n <= Ec n)%Z. Proof using. unfold Ep, Ec. nia. Qed.
Lemma abs_num rel cur cur' x r n : (0 <= n < lim)%Z -> ap 18 (Ep n) cur cur' -> rd x r -> Rabs (if rel : bool then cur' + r else r) <= B ->
  ap 18 (Ep (n + 1)) (if rel then fadd E cur x else x) (if rel then cur' + r else r).
Proof using.
  intros Hn Hc Hx Hb. apply rd_ap in Hx. apply ap_tight with (b := 19%Z); [|apply Ep_le; lia|exact Hb]. destruct rel.
  - refine (ap_le _ _ _ _ _ _ _ _ (ap_add 18 _ _ _ _ _ _ ltac:(lia) Hc Hx)); [lia|]. unfold Ep. lia.
  - refine (ap_le _ _ _ _ _ _ _ _ Hx); [lia|]. unfold Ep. lia.
Qed.
Notation near1 e := (r1 (ap 18 e)).
Lemma near1_le e e' p p' : (e <= e')%Z -> near1 e p p' -> near1 e' p p'.
Proof using. intros He [H1 H2]. split; [refine (ap_le _ _ _ _ _ _ _ He H1)|refine (ap_le _ _ _ _ _ _ _ He H2)]; lia. Qed.
Definition in_B (p : point X) : Prop := Rabs (fst p) <= B /\ Rabs (snd p) <= B.
Lemma abs_near rel cur cur' p p' n : (0 <= n < lim)%Z -> near1 (Ep n) cur cur' -> r1 rd p p' -> in_B (absolute X rel cur' p') ->
  near1 (Ep (n + 1)) (absolute E rel cur p) (absolute X rel cur' p').
Proof using.
  intros Hn [C1 C2] [P1 P2] [B1 B2]. unfold absolute in *. destruct rel; cbn [fst snd fadd RealEnv] in *.
  - split; [apply (abs_num true _ _ _ _ n Hn C1 P1 B1)|apply (abs_num true _ _ _ _ n Hn C2 P2 B2)].
  - split; [apply (abs_num false _ _ _ _ n Hn C1 P1 B1)|apply (abs_num false _ _ _ _ n Hn C2 P2 B2)].
Qed.
Lemma mirror_num cur cur' x r n : (0 <= n < lim)%Z -> ap 18 (Ep n) cur cur' -> ap 18 (Ec n) x r -> Rabs (cur' * 2 - r) <= B ->
  ap 18 (Ec (n + 1)) (fsub E (fmul E cur (fnum E 2)) x) (cur' * 2 - r).
Proof using.
  intros Hn Hc Hx Hb. apply ap_tight with (b := 20%Z); [|apply Ec_le; lia|exact Hb].
  assert (H2 : ap 1 0 (fnum E 2) 2) by (apply ap_num; [lia|cbn; lra]).
  pose proof (ap_mul 18 1 _ _ _ _ _ _ ltac:(lia) ltac:(lia) ltac:(lia) Hc H2) as Hm. change (18 + 1)%Z with 19%Z in Hm.
  refine (ap_le _ _ _ _ _ _ _ _ (ap_sub 19 _ _ _ _ _ _ ltac:(lia) Hm (ap_le 18 19 _ _ _ _ ltac:(lia) (Z.le_refl _) Hx))); [lia|]. unfold Ep, Ec. nia.
Qed.
Lemma mirror_near cur cur' p p' n : (0 <= n < lim)%Z -> near1 (Ep n) cur cur' -> near1 (Ec n) p p' -> in_B (mirror X cur' p') -> near1 (Ec (n + 1)) (mirror E cur p) (mirror X cur' p').
Proof using.
  intros Hn [C1 C2] [P1 P2] [B1 B2]. unfold mirror in *. cbn [fst snd] in *. rewrite fnum_real in *. cbn [fsub fmul RealEnv] in *.
  split; [apply (mirror_num _ _ _ _ n Hn C1 P1 B1)|apply (mirror_num _ _ _ _ n Hn C2 P2 B2)].
Qed.
(** ** The pen *)
Definition near_ctrl (e : Z) (c : ctrl E) (c' : ctrl X) : Prop :=
  match c, c' with NoCtrl, NoCtrl => True | QuadCtrl p, QuadCtrl p' | CubicCtrl p, CubicCtrl p' => near1 e p p' | _, _ => False end.
Definition near_pen (n : Z) (s : pen E) (s' : pen X) : Prop :=
  near1 (Ep n) (at_ s) (at_ s') /\ near1 (Ep n) (from s) (from s') /\ near_ctrl (Ec n) (last_ctrl s) (last_ctrl s').
Definition bounded (c : cmd X) : Prop := forall v, List.In v (args X c) -> Rabs v <= B.
Definition near_cmd (n : Z) : cmd E -> cmd X -> Prop := crel (ap 18 (Ec n)).
Lemma Ep_mono n m : (n <= m)%Z -> (Ep n <= Ep m)%Z. Proof using. unfold Ep. lia. Qed.
Lemma Ec_mono n m : (0 <= n <= m)%Z -> (Ec n <= Ec m)%Z. Proof using. unfold Ec. nia. Qed.
Lemma r1_mono (R R' : F E -> F X -> Prop) : (forall x y, R x y -> R' x y) -> forall p p', r1 R p p' -> r1 R' p p'.
Proof using. intros H p p' [H1 H2]. split; auto. Qed.
Lemma r2_mono (R R' : F E -> F X -> Prop) : (forall x y, R x y -> R' x y) -> forall p p', r2 R p p' -> r2 R' p p'.
Proof using. intros H p p' [H1 H2]. split; eapply r1_mono; eassumption. Qed.
Lemma r3_mono (R R' : F E -> F X -> Prop) : (forall x y, R x y -> R' x y) -> forall p p', r3 R p p' -> r3 R' p p'.
Proof using. intros H p p' [H1 H2]. split; [eapply r2_mono|eapply r1_mono]; eassumption. Qed.
Lemma crel_mono (R R' : F E -> F X -> Prop) : (forall x y, R x y -> R' x y) -> forall c c', crel R c c' -> crel R' c c'.
Proof using.
  intros H c c' Hc. pose proof (r1_mono R R' H) as M1. pose proof (r2_mono R R' H) as M2. pose proof (r3_mono R R' H) as M3.
  assert (F2 : forall {A A'} (P P' : A -> A' -> Prop), (forall x y, P x y -> P' x y) -> forall l l', Forall2 P l l' -> Forall2 P' l l') by (intros A A' P P' HP l l' HF; induction HF; constructor; auto).
  destruct Hc; constructor; eauto.
Qed.
Lemma near_cmd_mono n m c c' : (0 <= n <= m)%Z -> near_cmd n c c' -> near_cmd m c c'.
Proof using. intros H. apply crel_mono. intros x y. apply ap_le; [lia|apply Ec_mono, H]. Qed.
Lemma near1_c n p p' : (1 <= n)%Z -> near1 (Ep n) p p' -> near1 (Ec n) p p'.
Proof using. intros H. apply near1_le, Ep_Ec, H. Qed.
Lemma bounded1 rel p : bounded (LineTo rel p []) -> in_B p.
Proof using. intros H. split; apply H; cbn; tauto. Qed.
Lemma bounded2 rel p q : bounded (QuadTo rel (p, q) []) -> in_B p /\ in_B q.
Proof using. intros H. split; split; apply H; cbn; tauto. Qed.
Lemma bounded3 rel p q r : bounded (CubicTo rel (p, q, r) []) -> in_B p /\ in_B q /\ in_B r.
Proof using. intros H. split; [|split]; split; apply H; cbn; tauto. Qed.
Lemma from_next n p p' : near1 (Ep n) p p' -> near1 (Ep (n + 1)) p p'. Proof using. apply near1_le, Ep_mono. lia. Qed.

(** what one argument set does *)
Definition stepped {A A'} (RA : A -> A' -> Prop) (f : pen E -> A -> pen E * list op) (f' : pen X -> A' -> pen X * list op) (g : pen E -> A -> cmd E) (g' : pen X -> A' -> cmd X) : Prop :=
  forall n s s' a a', (0 <= n < lim)%Z -> near_pen n s s' -> RA a a' -> bounded (g' s' a') -> near_pen (n + 1) (fst (f s a)) (fst (f' s' a')) /\ near_cmd (n + 1) (g s a) (g' s' a').
Notation o0 := (fnum E 0, fnum E 0).
Notation o0' := (fnum X 0, fnum X 0).
Lemma step_line rel : stepped (r1 rd) (line E o0 rel) (line X o0' rel) (fun s p => LineTo false (absolute E rel (at_ s) p) []) (fun s p => LineTo false (absolute X rel (at_ s) p) []).
Proof using.
  intros n s s' a a' Hn (P1 & P2 & P3) Ha Hb. pose proof (abs_near rel _ _ _ _ n Hn P1 Ha (bounded1 _ _ Hb)) as H. split.
  - split; [exact H|]. split; [apply from_next, P2|exact I].
  - constructor; [apply near1_c; [lia|exact H]|constructor].
Qed.
Lemma step_h rel : stepped rd (hline E o0 rel) (hline X o0' rel) (fun s x => LineTo false (if rel then fadd E (fst (at_ s)) x else x, snd (at_ s)) []) (fun s x => LineTo false (if rel then fadd X (fst (at_ s)) x else x, snd (at_ s)) []).
Proof using.
  intros n s s' a a' Hn (P1 & P2 & P3) Ha Hb. apply bounded1 in Hb as [B1 _]. pose proof (abs_num rel _ _ _ _ n Hn (proj1 P1) Ha B1) as H.
  assert (H' : near1 (Ep (n + 1)) (if rel then fadd E (fst (at_ s)) a else a, snd (at_ s)) (if rel then fadd X (fst (at_ s')) a' else a', snd (at_ s'))) by (split; [exact H|apply (from_next n _ _ P1)]).
  split; [split; [exact H'|split; [apply from_next, P2|exact I]]|]. constructor; [apply near1_c; [lia|exact H']|constructor].
Qed.
Lemma step_v rel : stepped rd (vline E o0 rel) (vline X o0' rel) (fun s y => LineTo false (fst (at_ s), if rel then fadd E (snd (at_ s)) y else y) []) (fun s y => LineTo false (fst (at_ s), if rel then fadd X (snd (at_ s)) y else y) []).
Proof using.
  intros n s s' a a' Hn (P1 & P2 & P3) Ha Hb. apply bounded1 in Hb as [_ B1]. pose proof (abs_num rel _ _ _ _ n Hn (proj2 P1) Ha B1) as H.
  assert (H' : near1 (Ep (n + 1)) (fst (at_ s), if rel then fadd E (snd (at_ s)) a else a) (fst (at_ s'), if rel then fadd X (snd (at_ s')) a' else a')) by (split; [apply (from_next n _ _ P1)|exact H]).
  split; [split; [exact H'|split; [apply from_next, P2|exact I]]|]. constructor; [apply near1_c; [lia|exact H']|constructor].
Qed.
Lemma step_quad rel : stepped (r2 rd) (quad E o0 rel) (quad X o0' rel)
  (fun s q => QuadTo false (absolute E rel (at_ s) (fst q), absolute E rel (at_ s) (snd q)) []) (fun s q => QuadTo false (absolute X rel (at_ s) (fst q), absolute X rel (at_ s) (snd q)) []).
Proof using.
  intros n s s' a a' Hn (P1 & P2 & P3) [A1 A2] Hb. apply bounded2 in Hb as [B1 B2].
  pose proof (near1_c (n + 1) _ _ ltac:(lia) (abs_near rel _ _ _ _ n Hn P1 A1 B1)) as H1. pose proof (abs_near rel _ _ _ _ n Hn P1 A2 B2) as H2.
  split; [split; [exact H2|split; [apply from_next, P2|exact H1]]|]. constructor; [split; [exact H1|apply near1_c; [lia|exact H2]]|constructor].
Qed.
Lemma step_squad rel : stepped (r1 rd) (smooth_quad E o0 rel) (smooth_quad X o0' rel)
  (fun s p => QuadTo false (match last_ctrl s with QuadCtrl c => mirror E (at_ s) c | _ => at_ s end, absolute E rel (at_ s) p) [])
  (fun s p => QuadTo false (match last_ctrl s with QuadCtrl c => mirror X (at_ s) c | _ => at_ s end, absolute X rel (at_ s) p) []).
Proof using.
  intros n s s' a a' Hn (P1 & P2 & P3) A2 Hb. apply bounded2 in Hb as [B1 B2].
  assert (H1 : near1 (Ec (n + 1)) (match last_ctrl s with QuadCtrl c => mirror E (at_ s) c | _ => at_ s end) (match last_ctrl s' with QuadCtrl c => mirror X (at_ s') c | _ => at_ s' end)).
  { destruct (last_ctrl s), (last_ctrl s'); cbn in P3; try contradiction; try (apply near1_c; [lia|apply from_next, P1]). apply mirror_near; assumption. }
  pose proof (abs_near rel _ _ _ _ n Hn P1 A2 B2) as H2.
  split; [split; [exact H2|split; [apply from_next, P2|exact H1]]|]. constructor; [split; [exact H1|apply near1_c; [lia|exact H2]]|constructor].
Qed.
Lemma step_cubic rel : stepped (r3 rd) (cubic E o0 rel) (cubic X o0' rel)
  (fun s q => CubicTo false (absolute E rel (at_ s) (fst (fst q)), absolute E rel (at_ s) (snd (fst q)), absolute E rel (at_ s) (snd q)) [])
  (fun s q => CubicTo false (absolute X rel (at_ s) (fst (fst q)), absolute X rel (at_ s) (snd (fst q)), absolute X rel (at_ s) (snd q)) []).
Proof using.
  intros n s s' [[a1 a2] a3] [[a1' a2'] a3'] Hn (P1 & P2 & P3) [[A1 A2] A3] Hb. cbn [fst snd] in *. apply bounded3 in Hb as (B1 & B2 & B3).
  pose proof (near1_c (n + 1) _ _ ltac:(lia) (abs_near rel _ _ _ _ n Hn P1 A1 B1)) as H1. pose proof (near1_c (n + 1) _ _ ltac:(lia) (abs_near rel _ _ _ _ n Hn P1 A2 B2)) as H2. pose proof (abs_near rel _ _ _ _ n Hn P1 A3 B3) as H3.
  split; [split; [exact H3|split; [apply from_next, P2|exact H2]]|]. constructor; [split; [split; [exact H1|exact H2]|apply near1_c; [lia|exact H3]]|constructor].
Qed.
Lemma step_scubic rel : stepped (r2 rd) (smooth_cubic E o0 rel) (smooth_cubic X o0' rel)
  (fun s q => CubicTo false (match last_ctrl s with CubicCtrl c => mirror E (at_ s) c | _ => at_ s end, absolute E rel (at_ s) (fst q), absolute E rel (at_ s) (snd q)) [])
  (fun s q => CubicTo false (match last_ctrl s with CubicCtrl c => mirror X (at_ s) c | _ => at_ s end, absolute X rel (at_ s) (fst q), absolute X rel (at_ s) (snd q)) []).
Proof using.
  intros n s s' a a' Hn (P1 & P2 & P3) [A2 A3] Hb. apply bounded3 in Hb as (B1 & B2 & B3).
  assert (H1 : near1 (Ec (n + 1)) (match last_ctrl s with CubicCtrl c => mirror E (at_ s) c | _ => at_ s end) (match last_ctrl s' with CubicCtrl c => mirror X (at_ s') c | _ => at_ s' end)).
  { destruct (last_ctrl s), (last_ctrl s'); cbn in P3; try contradiction; try (apply near1_c; [lia|apply from_next, P1]). apply mirror_near; assumption. }
  pose proof (near1_c (n + 1) _ _ ltac:(lia) (abs_near rel _ _ _ _ n Hn P1 A2 B2)) as H2. pose proof (abs_near rel _ _ _ _ n Hn P1 A3 B3) as H3.
  split; [split; [exact H3|split; [apply from_next, P2|exact H2]]|]. constructor; [split; [split; [exact H1|exact H2]|apply near1_c; [lia|exact H3]]|constructor].
Qed.

(** ** All argument sets *)
Lemma many_near {A A'} (RA : A -> A' -> Prop) f f' g g' : stepped RA f f' g g' -> forall l l' n s s', (0 <= n)%Z -> (n + Z.of_nat (List.length l) <= lim)%Z ->
  near_pen n s s' -> Forall2 RA l l' -> Forall bounded (each X f' g' s' l') ->
  near_pen (n + Z.of_nat (List.length l)) (fst (many E f s l)) (fst (many X f' s' l')) /\ Forall2 (near_cmd (n + Z.of_nat (List.length l))) (each E f g s l) (each X f' g' s' l').
Proof using.
  intros Hs l l' n s s' Hn Hl Hp HF. revert n s s' Hn Hl Hp. induction HF as [|a a' l l' Ha HF IH]; intros n s s' Hn Hl Hp Hb; cbn [each many].
  - cbn [List.length Z.of_nat]. rewrite Z.add_0_r. split; [exact Hp|constructor].
  - cbn [List.length] in Hl |- *. rewrite Nat2Z.inj_succ in Hl |- *. cbn [each] in Hb. inversion Hb as [|? ? B1 B2]; subst.
    destruct (Hs n s s' a a' ltac:(lia) Hp Ha B1) as [H1 H2]. destruct (f s a) as [s1 o1], (f' s' a') as [s1' o1']. cbn [fst] in *.
    destruct (IH (n + 1)%Z s1 s1' ltac:(lia) ltac:(lia) H1 B2) as [H3 H4]. destruct (many E f s1 l) as [s2 o2], (many X f' s1' l') as [s2' o2']. cbn [fst] in *.
    replace (n + Z.succ (Z.of_nat (List.length l)))%Z with (n + 1 + Z.of_nat (List.length l))%Z by lia. split; [exact H3|]. constructor; [|exact H4]. apply (near_cmd_mono (n + 1)); [lia|exact H2].
Qed.
Lemma exec_near c c' n s s' : (0 <= n)%Z -> (n + set_count c <= lim)%Z -> near_pen n s s' -> crel rd c c' -> Forall bounded (longhand_of X s' c') ->
  near_pen (n + set_count c) (fst (exec E o0 s c)) (fst (exec X o0' s' c')) /\ Forall2 (near_cmd (n + set_count c)) (longhand_of E s c) (longhand_of X s' c').
Proof using.
  intros Hn Hl Hp Hc Hb. destruct Hc; cbn [set_count] in *; cbn [longhand_of] in *.
  1: { cbv zeta in *. inversion Hb as [|? ? B1 B2]; subst. pose proof Hp as (P1 & P2 & P3). pose proof (abs_near rel _ _ _ _ n ltac:(lia) P1 H (bounded1 false _ B1)) as Hq.
    assert (Hpen : near_pen (n + 1) (mkPen (absolute E rel (at_ s) p) (absolute E rel (at_ s) p) NoCtrl) (mkPen (absolute X rel (at_ s') p') (absolute X rel (at_ s') p') NoCtrl)) by (split; [exact Hq|split; [exact Hq|exact I]]).
    destruct (many_near _ _ _ _ _ (step_line rel) ps ps' (n + 1)%Z _ _ ltac:(lia) ltac:(lia) Hpen H0 B2) as [H3 H4]. rewrite <- Z.add_assoc in H3, H4. split.
    - unfold exec. cbv zeta. destruct (many E _ _ ps), (many X _ _ ps'). exact H3.
    - constructor; [|exact H4]. constructor; [|constructor]. apply near1_c; [lia|]. apply (near1_le (Ep (n + 1))); [apply Ep_mono; lia|exact Hq]. }
  8: { rewrite Z.add_0_r. destruct Hp as (P1 & P2 & P3). split; [split; [exact P2|split; [exact P2|exact I]]|]. constructor; [constructor|constructor]. }
  all: unfold exec; match goal with |- context [(1 + Z.of_nat (List.length ?ps))%Z] => replace (1 + Z.of_nat (List.length ps))%Z with (Z.of_nat (S (List.length ps))) in * by lia end.
  - apply (many_near _ _ _ _ _ (step_line rel) (p :: ps) (p' :: ps')); auto.
  - apply (many_near _ _ _ _ _ (step_h rel) (p :: ps) (p' :: ps')); auto.
  - apply (many_near _ _ _ _ _ (step_v rel) (p :: ps) (p' :: ps')); auto.
  - apply (many_near _ _ _ _ _ (step_quad rel) (p :: ps) (p' :: ps')); auto.
  - apply (many_near _ _ _ _ _ (step_squad rel) (p :: ps) (p' :: ps')); auto.
  - apply (many_near _ _ _ _ _ (step_cubic rel) (p :: ps) (p' :: ps')); auto.
  - apply (many_near _ _ _ _ _ (step_scubic rel) (p :: ps) (p' :: ps')); auto.
Qed.
Lemma set_count_pos {E0 : Env} (c : cmd E0) : (0 <= set_count c)%Z. Proof using. destruct c; cbn [set_count]; lia. Qed.
Lemma sets_pos {E0 : Env} (cs : list (cmd E0)) : (0 <= sets cs)%Z. Proof using. unfold sets. induction cs as [|c cs IH]; cbn [map fold_right]; [lia|]. pose proof (set_count_pos c). lia. Qed.
Lemma longhand_near cs cs' : Forall2 (crel rd) cs cs' -> forall n s s', (0 <= n)%Z -> (n + sets cs <= lim)%Z -> near_pen n s s' -> Forall bounded (longhand X s' cs') ->
  Forall2 (near_cmd (n + sets cs)) (longhand E s cs) (longhand X s' cs').
Proof using.
  induction 1 as [|c c' cs cs' Hc HF IH]; intros n s s' Hn Hl Hp Hb; cbn [longhand]; [constructor|]. change (sets (c :: cs)) with (set_count c + sets cs)%Z in *.
  cbn [longhand] in Hb. apply Forall_app in Hb as [B1 B2]. pose proof (set_count_pos c). pose proof (sets_pos cs). destruct (exec_near c c' n s s' Hn ltac:(lia) Hp Hc B1) as [H1 H2]. rewrite Z.add_assoc. apply Forall2_app.
  - clear - H2 Hn H H0. induction H2; constructor; auto. apply (near_cmd_mono (n + set_count c)); [lia|assumption].
  - apply IH; [lia|lia|exact H1|exact B2].
Qed.
(** ** The numbers of a drawing that stays small are small *)
Lemma rel_arg rel cur v : Rabs cur <= B -> Rabs (if rel : bool then cur + v else v) <= B -> Rabs v <= pow 18.
Proof using.
  intros H1 H2. replace (pow 18) with (B + B) by (change (pow 18) with (pow (17 + 1)); rewrite bpow_plus; change (pow 1) with 2; ring). pose proof (bpow_ge_0 radix2 17). destruct rel; [|lra].
  apply Rabs_le_inv in H1, H2. apply Rabs_le. lra.
Qed.
Definition small (v : F X) : Prop := Rabs v <= pow 18.
Definition kept {A'} (fa : A' -> list (F X)) (f' : pen X -> A' -> pen X * list op) (g' : pen X -> A' -> cmd X) : Prop :=
  forall s a, in_B (at_ s) -> bounded (g' s a) -> in_B (at_ (fst (f' s a))) /\ from (fst (f' s a)) = from s /\ Forall small (fa a).
Lemma abs_small rel cur p : in_B cur -> in_B (absolute X rel cur p) -> Forall small (p1 X p).
Proof using.
  intros [C1 C2] [H1 H2]. unfold absolute in *. constructor; [|constructor; [|constructor]]; unfold small; [apply (rel_arg rel (fst cur)); [exact C1|]|apply (rel_arg rel (snd cur)); [exact C2|]]; destruct rel; assumption.
Qed.
Lemma many_small {A'} (fa : A' -> list (F X)) f' g' : kept fa f' g' -> forall l s, in_B (at_ s) -> Forall bounded (each X f' g' s l) ->
  in_B (at_ (fst (many X f' s l))) /\ from (fst (many X f' s l)) = from s /\ Forall small (flat_map fa l).
Proof using.
  intros Hk. induction l as [|a l IH]; intros s Hs Hb; [repeat split; try apply Hs; constructor|]. cbn [each] in Hb. inversion Hb as [|? ? B1 B2]; subst. destruct (Hk s a Hs B1) as (H1 & H2 & H3).
  cbn [many flat_map]. destruct (f' s a) as [s1 o1]. cbn [fst] in *. destruct (IH s1 H1 B2) as (H4 & H5 & H6). destruct (many X f' s1 l). cbn [fst] in *. split; [exact H4|]. split; [congruence|]. apply Forall_app. now split.
Qed.
Lemma exec_small c s : in_B (at_ s) -> in_B (from s) -> Forall bounded (longhand_of X s c) -> in_B (at_ (fst (exec X o0' s c))) /\ in_B (from (fst (exec X o0' s c))) /\ Forall small (args X c).
Proof using.
  intros Ha Hf Hb.
  assert (KL : forall rel, kept (p1 X) (line X o0' rel) (fun s p => LineTo false (absolute X rel (at_ s) p) [])).
  { intros rel s0 a Hs Hb0. apply bounded1 in Hb0. split; [exact Hb0|]. split; [reflexivity|]. apply (abs_small rel (at_ s0)); assumption. }
  assert (Go : forall A' (fa : A' -> list (F X)) f' g' l, kept fa f' g' -> Forall bounded (each X f' g' s l) -> in_B (at_ (fst (many X f' s l))) /\ in_B (from (fst (many X f' s l))) /\ Forall small (flat_map fa l)).
  { intros A' fa f' g' l Hk Hb0. destruct (many_small fa f' g' Hk l s Ha Hb0) as (H1 & H2 & H3). rewrite H2. auto. }
  assert (One : forall l : list (F X), flat_map (fun x => [x]) l = l) by (intros l; induction l as [|x l IH]; [reflexivity|]; cbn in *; congruence).
  destruct c as [rel p ps|rel p ps|rel p ps|rel p ps|rel p ps|rel p ps|rel p ps|rel p ps|]; cbn [longhand_of] in Hb; cbn [args].
  - cbv zeta in Hb. inversion Hb as [|? ? B1 B2]; subst. apply (bounded1 false) in B1. set (q := absolute X rel (at_ s) p) in *.
    destruct (many_small _ _ _ (KL rel) ps (mkPen q q NoCtrl) B1 B2) as (H1 & H2 & H3). unfold exec. cbv zeta. fold q. destruct (many X (line X o0' rel) _ ps) as [s1 o1]. cbn [fst] in *.
    split; [exact H1|]. rewrite H2. split; [exact B1|]. cbn [flat_map]. apply Forall_app. split; [apply (abs_small rel (at_ s)); assumption|exact H3].
  - apply (Go _ (p1 X) _ _ _ (KL rel) Hb).
  - rewrite <- (One (p :: ps)). eapply (Go _ (fun x => [x])); [|exact Hb]. intros s0 a Hs Hb0. apply bounded1 in Hb0. split; [exact Hb0|]. split; [reflexivity|]. constructor; [|constructor]. apply (rel_arg rel (fst (at_ s0))); [apply Hs|apply Hb0].
  - rewrite <- (One (p :: ps)). eapply (Go _ (fun x => [x])); [|exact Hb]. intros s0 a Hs Hb0. apply bounded1 in Hb0. split; [exact Hb0|]. split; [reflexivity|]. constructor; [|constructor]. apply (rel_arg rel (snd (at_ s0))); [apply Hs|apply Hb0].
  - eapply (Go _ (p2 X)); [|exact Hb]. intros s0 a Hs Hb0. apply bounded2 in Hb0 as [B1 B2]. split; [exact B2|]. split; [reflexivity|]. apply Forall_app; split; apply (abs_small rel (at_ s0)); assumption.
  - eapply (Go _ (p1 X)); [|exact Hb]. intros s0 a Hs Hb0. apply bounded2 in Hb0 as [B1 B2]. split; [exact B2|]. split; [reflexivity|]. apply (abs_small rel (at_ s0)); assumption.
  - eapply (Go _ (p3 X)); [|exact Hb]. intros s0 [[a b] d] Hs Hb0. cbn [fst snd] in Hb0. apply bounded3 in Hb0 as (B1 & B2 & B3). split; [exact B3|]. split; [reflexivity|].
    unfold p3, p2. cbn [fst snd]. apply Forall_app; split; [apply Forall_app; split|]; apply (abs_small rel (at_ s0)); assumption.
  - eapply (Go _ (p2 X)); [|exact Hb]. intros s0 a Hs Hb0. apply bounded3 in Hb0 as (B1 & B2 & B3). split; [exact B3|]. split; [reflexivity|]. apply Forall_app; split; apply (abs_small rel (at_ s0)); assumption.
  - split; [exact Hf|split; [exact Hf|constructor]].
Qed.
Lemma args_small cs : forall s, in_B (at_ s) -> in_B (from s) -> Forall bounded (longhand X s cs) -> Forall (fun c => Forall small (args X c)) cs.
Proof using.
  induction cs as [|c cs IH]; intros s Ha Hf Hb; [constructor|]. cbn [longhand] in Hb. apply Forall_app in Hb as [B1 B2]. destruct (exec_small c s Ha Hf B1) as (H1 & H2 & H3). constructor; [exact H3|]. apply (IH _ H1 H2 B2).
Qed.
(** ** Rounding to 1/64 *)
Lemma trunc_steps k : forall x y, Rabs (x - y) <= INR k -> (Z.abs (Ztrunc x - Ztrunc y) <= Z.of_nat k)%Z.
Proof using.
  induction k as [|k IH]; intros x y H.
  - cbn in H. pose proof (Rabs_pos (x - y)). assert (x - y = 0) by (destruct (Req_dec (x - y) 0) as [|N]; [assumption|]; apply Rabs_pos_lt in N; lra). replace x with y by lra. rewrite Z.sub_diag. cbn. lia.
  - set (z := x + (y - x) * (INR k / INR (S k))). assert (Hk : 0 < INR (S k)) by (apply lt_0_INR; lia). assert (H0 : 0 <= INR k) by apply pos_INR.
    assert (H1 : Rabs (x - z) <= INR k).
    { unfold z. replace (x - (x + (y - x) * (INR k / INR (S k)))) with ((x - y) * (INR k / INR (S k))) by ring. rewrite Rabs_mult. rewrite (Rabs_pos_eq (INR k / INR (S k))) by (apply Rmult_le_pos; [exact H0|apply Rlt_le, Rinv_0_lt_compat, Hk]).
      apply Rle_trans with (INR (S k) * (INR k / INR (S k))); [|right; field; lra]. apply Rmult_le_compat_r; [apply Rmult_le_pos; [exact H0|apply Rlt_le, Rinv_0_lt_compat, Hk]|exact H]. }
    assert (H2 : Rabs (z - y) <= 1).
    { unfold z. replace (x + (y - x) * (INR k / INR (S k)) - y) with ((x - y) * (1 / INR (S k))) by (rewrite S_INR in *; field; lra). rewrite Rabs_mult. rewrite (Rabs_pos_eq (1 / INR (S k))) by (apply Rmult_le_pos; [lra|apply Rlt_le, Rinv_0_lt_compat, Hk]).
      apply Rle_trans with (INR (S k) * (1 / INR (S k))); [|right; field; lra]. apply Rmult_le_compat_r; [apply Rmult_le_pos; [lra|apply Rlt_le, Rinv_0_lt_compat, Hk]|exact H]. }
    pose proof (IH _ _ H1). pose proof (trunc_step _ _ H2). lia.
Qed.
Definition bound (n : Z) : Z := (1 + n * n / 2 ^ 26)%Z.
Lemma coord_dot n x r off : (0 <= n <= lim)%Z -> ap 18 (Ec n) x r -> upto O 17 off ->
  (Z.abs (f_to_i32 E (fmul E (fadd E x off) (fnum E 64)) - f_to_i32 X (fmul X (fadd X r (val off)) (fnum X 64))) <= bound n)%Z.
Proof using.
  intros Hn Hx Ho. rewrite fnum_real. apply upto_ap in Ho. change (Z.of_nat 17) with 17%Z in Ho.
  pose proof (ap_add 18 _ _ _ _ _ _ ltac:(lia) Hx (ap_le 17 18 _ _ _ _ ltac:(lia) (Z.le_refl _) Ho)) as H1. assert (H64 : ap 6 0 (fnum E 64) 64) by (apply ap_num; [lia|cbn; lra]).
  pose proof (ap_mul 19 6 _ _ _ _ _ _ ltac:(lia) ltac:(lia) ltac:(lia) H1 H64) as ((V & Fi & Bx) & He & Hr). cbn [f_to_i32 F64 RealEnv fmul fadd] in *. unfold prec64, emax64 in *.
  set (y := SFmul 53 1024 (SFadd 53 1024 x off) (fnum E 64)) in *. set (z := (r + val off) * 64) in *.
  assert (Hd : Rabs (val y - z) <= IZR (bound n)).
  { apply Rle_trans with (1 := He). unfold bound. pose proof (Z.div_mod (n * n) (2 ^ 26) ltac:(lia)) as Dm. pose proof (Z.mod_pos_bound (n * n) (2 ^ 26) ltac:(lia)) as Mb. set (q := (n * n / 2 ^ 26)%Z) in *.
    apply Rle_trans with (IZR ((1 + q) * 2 ^ 100) * u100); [apply Rmult_le_compat_r; [apply Rlt_le, u_pos|]; apply IZR_le; unfold Ec; lia|].
    rewrite mult_IZR, (pow_Z 100) by lia. rewrite Rmult_assoc, <- bpow_plus. change (pow (100 + -100)) with 1. rewrite Rmult_1_r. lra. }
  assert (Hq : (0 <= bound n <= 2 ^ 20)%Z).
  { unfold bound. assert (0 <= n * n <= 2 ^ 40)%Z by nia. pose proof (Z.div_le_mono (n * n) (2 ^ 40) (2 ^ 26) ltac:(lia) ltac:(lia)). pose proof (Z.div_pos (n * n) (2 ^ 26) ltac:(lia) ltac:(lia)). change (2 ^ 40 / 2 ^ 26)%Z with 16384%Z in *. lia. }
  assert (Hi : int32 (Ztrunc (val y)) /\ int32 (Ztrunc z)).
  { assert (pow 25 < 2147483648) by (cbn; lra). split; apply trunc_int32; eapply Rle_lt_trans; [exact Bx|assumption|exact Hr|assumption]. }
  destruct Hi as [I1 I2]. rewrite (to_i32_val O y _ Fi eq_refl I1), (wrap32_id _ I2). rewrite <- (Z2Nat.id (bound n)) by lia. apply trunc_steps. rewrite INR_IZR_INZ, Z2Nat.id by lia. exact Hd.
Qed.
Lemma dot_near n off p p' : (0 <= n <= lim)%Z -> upto O 17 (fst off) -> upto O 17 (snd off) -> r1 (ap 18 (Ec n)) p p' -> pt_within (bound n) (dot E off p) (dot X (val (fst off), val (snd off)) p').
Proof using. intros Hn H1 H2 [P1 P2]. split; apply coord_dot; assumption. Qed.
Lemma long_drawn n off l l' : (0 <= n <= lim)%Z -> upto O 17 (fst off) -> upto O 17 (snd off) -> Forall2 (near_cmd n) l l' -> forallb (long_cmd E) l = true ->
  forall s s', Forall2 (op_within (bound n)) (snd (run E off s l)) (snd (run X (val (fst off), val (snd off)) s' l')).
Proof using.
  intros Hn O1 O2 HF. pose proof (dot_near n off) as Hdot. unfold run. induction HF as [|c c' l l' Hc HF IH]; intros Hl s s'; [constructor|]. cbn [forallb] in Hl. apply andb_prop in Hl as [L1 L2]. cbn [many].
  assert (H1 : Forall2 (op_within (bound n)) (snd (exec E off s c)) (snd (exec X (val (fst off), val (snd off)) s' c'))).
  { destruct Hc as [rel p ps p' ps' H1 H2|rel p ps p' ps' H1 H2|rel p ps p' ps' H1 H2|rel p ps p' ps' H1 H2|rel p ps p' ps' H1 H2|rel p ps p' ps' H1 H2|rel p ps p' ps' H1 H2|rel p ps p' ps' H1 H2|];
      try (destruct rel; discriminate); try (destruct rel; [discriminate|]; destruct ps; [|discriminate]; inversion H2; subst).
    - cbn. constructor; [|constructor]. constructor. now apply Hdot.
    - cbn. constructor; [|constructor]. constructor. now apply Hdot.
    - destruct p as [a b], p' as [a' b'], H1 as [H3 H4]. cbn. constructor; [|constructor]. constructor; now apply Hdot.
    - destruct p as [[a b] d], p' as [[a' b'] d'], H1 as [[H3 H4] H5]. cbn. constructor; [|constructor]. constructor; now apply Hdot.
    - cbn. constructor; [|constructor]. constructor. }
  destruct (exec E off s c) as [s1 o1], (exec X _ s' c') as [s1' o1']. specialize (IH L2 s1 s1'). cbn [snd] in *.
  destruct (many E (exec E off) s1 l) as [s2 o2], (many X (exec X _) s1' l') as [s2' o2']. cbn [snd] in *. now apply Forall2_app.
Qed.
Theorem read_spelled s cs' off : reads_exactly Q -> spells X s cs' -> closes_open X false cs' = true -> coords_upto Q (2 ^ 17) cs' -> (sets cs' <= 2 ^ 20)%Z ->
  upto O 17 (fst off) -> upto O 17 (snd off) ->
  exists cs, spells E s cs /\ closes_open E false cs = true
    /\ Forall2 (op_within (1 + sets cs' * sets cs' / 2 ^ 26)) (draws E off cs) (draws X (value64 (fst off), value64 (snd off)) cs').
Proof using.
  intros HQ (lead & body & Es & Hlead & Hsp) Hc Hb Hn H1 H2.
  assert (Hbd : Forall bounded (longhand X (pen0 X) cs')).
  { apply Forall_forall. intros d Hd v Hv. replace B with (2 ^ 17)%R by (cbn; lra). apply (Hb d v Hd Hv). }
  assert (H0 : in_B (fnum X 0, fnum X 0)) by (unfold in_B; cbn [fst snd]; rewrite fnum_real, Rabs_R0; split; apply bpow_ge_0).
  pose proof (args_small cs' (pen0 X) H0 H0 Hbd) as Hs. rewrite Forall_forall in Hs.
  destruct (commands_read body cs' HQ Hsp) as (cs & Hsp' & Hr). { intros d v Hd Hv. specialize (Hs d Hd). rewrite Forall_forall in Hs. apply Hs, Hv. }
  assert (Hsets : sets cs = sets cs').
  { clear - Hr. unfold sets. induction Hr as [|d d' l l' Hd Hr IH]; [reflexivity|]. cbn [map fold_right]. rewrite IH. f_equal. destruct Hd as [? ? ? ? ? ? K|? ? ? ? ? ? K|? ? ? ? ? ? K|? ? ? ? ? ? K|? ? ? ? ? ? K|? ? ? ? ? ? K|? ? ? ? ? ? K|? ? ? ? ? ? K|]; cbn [set_count]; try reflexivity; f_equal; f_equal; clear - K; (induction K; [reflexivity|cbn [List.length]; f_equal; assumption]). }
  rewrite <- (crel_closes rd cs cs' Hr) in Hc.
  exists cs. split; [exists lead, body; auto|]. split; [exact Hc|].
  unfold draws. rewrite <- (longhand_same _ cs), <- (longhand_same _ cs').
  assert (Hz : near1 (Ep 0) (fnum E 0, fnum E 0) (fnum X 0, fnum X 0)) by (split; cbn [fst snd]; rewrite fnum_real; apply ap_zero; lia).
  pose proof (sets_pos cs) as Hp. pose proof (longhand_near cs cs' Hr 0 (pen0 E) (pen0 X) ltac:(lia) ltac:(lia) (conj Hz (conj Hz I)) Hbd) as Hnear. rewrite Z.add_0_l in Hnear.
  rewrite <- Hsets. apply (long_drawn (sets cs) off); [lia|exact H1|exact H2|exact Hnear|apply longhand_long].
Qed.
Theorem read_close s cs' (c : pcur E) : reads_exactly Q -> spells X s cs' -> closes_open X false cs' = true -> coords_upto Q (2 ^ 17) cs' -> (sets cs' <= 2 ^ 20)%Z ->
  upto O 17 (pc_curX c) -> upto O 17 (pc_curY c) ->
  exists c', compilePath s c = (c', Ret tt) /\ pc_log c' = pc_log c
    /\ Forall2 (op_within (1 + sets cs' * sets cs' / 2 ^ 26)) (pc_path c') (draws X (value64 (pc_curX c), value64 (pc_curY c)) cs').
Proof using.
  intros HQ Hs Hc Hb Hn H1 H2. destruct (read_spelled s cs' (pc_curX c, pc_curY c) HQ Hs Hc Hb Hn H1 H2) as (cs & K1 & K2 & K3).
  destruct (compilePath_draws (F64_add_comm O) s cs c K1 K2) as (c1 & L1 & L2 & _ & L3). exists c1. split; [exact L1|]. split; [exact L3|]. rewrite L2. exact K3.
Qed.
Theorem read_close_short s cs' (c : pcur E) : reads_exactly Q -> spells X s cs' -> closes_open X false cs' = true -> coords_upto Q (2 ^ 17) cs' -> (sets cs' < 8192)%Z ->
  upto O 17 (pc_curX c) -> upto O 17 (pc_curY c) ->
  exists c', compilePath s c = (c', Ret tt) /\ pc_log c' = pc_log c
    /\ Forall2 (op_within 1) (pc_path c') (draws X (value64 (pc_curX c), value64 (pc_curY c)) cs').
Proof using.
  intros HQ Hs Hc Hb Hn H1 H2. pose proof (sets_pos cs') as Hp. destruct (read_close s cs' c HQ Hs Hc Hb ltac:(lia) H1 H2) as (c1 & K1 & K2 & K3). exists c1.
  replace (sets cs' * sets cs' / 2 ^ 26)%Z with 0%Z in K3 by (symmetry; apply Z.div_small; change (2 ^ 26)%Z with (8192 * 8192)%Z; nia). auto.
Qed.
Theorem number_nearest n : legal_numeral n = true -> short_exp n = true -> Rabs (num_exact n) <= bpow radix2 900 ->
  exists x, num_value E n = Some x /\ finite64 x /\ value64 x = round radix2 (FLT_exp (-1074) 53) ZnearestE (num_exact n).
Proof using. intros H1 Hs H2. destruct (read_nearest O n H1 Hs H2) as (x & K1 & K2 & K3 & K4). exists x. split; [exact K1|]. split; [split; assumption|exact K4]. Qed.
End Read.

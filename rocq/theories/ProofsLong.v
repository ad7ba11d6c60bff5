(** * ProofsLong: a path and its longhand draw the same *)
From Verif Require Import Geom PathCur SpecLong ProofsPath3 ProofsPath4.

Section Long.
Context {E : Env}.
Notation cmd := (cmd E).
Notation pen := (pen E).
Context (off : point E).
Notation origin := (fnum E 0, fnum E 0).
Lemma many_app {A} (f : pen -> A -> pen * list op) s l r :
  many E f s (l ++ r) = let (s1, o1) := many E f s l in let (s2, o2) := many E f s1 r in (s2, o1 ++ o2).
Proof. revert s. induction l as [|a l IH]; intros s; cbn; [destruct (many E f s r); reflexivity|]. destruct (f s a) as [s1 o1]. rewrite IH. destruct (many E f s1 l) as [s2 o2]. destruct (many E f s2 r). now rewrite app_assoc. Qed.
Lemma each_same {A} (f f0 : pen -> A -> pen * list op) (g : pen -> A -> cmd) : (forall s a, fst (f0 s a) = fst (f s a)) -> (forall s a, exec E off s (g s a) = f s a) ->
  forall l s, many E (exec E off) s (each E f0 g s l) = many E f s l.
Proof. intros H0 H. induction l as [|a l IH]; intros s; [reflexivity|]. cbn [each many]. rewrite H, H0. destruct (f s a) as [s1 o1]. cbn [fst]. rewrite IH. reflexivity. Qed.
Lemma many_pen {A} (f f0 : pen -> A -> pen * list op) : (forall s a, fst (f0 s a) = fst (f s a)) -> forall l s, fst (many E f0 s l) = fst (many E f s l).
Proof. intros H0. induction l as [|a l IH]; intros s; [reflexivity|]. cbn. specialize (H0 s a). destruct (f0 s a), (f s a). cbn in H0. subst. specialize (IH p0). destruct (many E f0 p0 l), (many E f p0 l). exact IH. Qed.
Lemma one {A} (f : pen -> A -> pen * list op) s a : many E f s [a] = f s a.
Proof. cbn. destruct (f s a). now rewrite app_nil_r. Qed.
Lemma exec_pen s c : fst (exec E origin s c) = fst (exec E off s c).
Proof.
  destruct c as [rel p ps|rel p ps|rel p ps|rel p ps|rel p ps|rel p ps|rel p ps|rel p ps|]; unfold exec; try reflexivity.
  1: { pose proof (many_pen (line E off rel) (line E origin rel) ltac:(reflexivity) ps (mkPen (absolute E rel (at_ s) p) (absolute E rel (at_ s) p) NoCtrl)) as H. cbv zeta.
    destruct (many E (line E origin rel) _ ps), (many E (line E off rel) _ ps). exact H. }
  all: apply many_pen; try reflexivity. intros s0 [[a b] d]. reflexivity.
Qed.
Lemma longhand_of_same s c : run E off s (longhand_of E s c) = exec E off s c.
Proof.
  unfold run. destruct c as [rel p ps|rel p ps|rel p ps|rel p ps|rel p ps|rel p ps|rel p ps|rel p ps|]; cbn [longhand_of].
  1: { cbv zeta. set (q := absolute E rel (at_ s) p). change (exec E off s (MoveTo rel p ps)) with (let (s', o) := many E (line E off rel) (mkPen q q NoCtrl) ps in (s', OpMoveTo (dot E off q) :: o)).
    cbn [many]. change (exec E off s (MoveTo false q [])) with (mkPen q q (NoCtrl (E := E)), [OpMoveTo (dot E off q)]). cbv beta iota.
    rewrite (each_same (line E off rel)); [destruct (many E (line E off rel) _ ps); reflexivity|reflexivity|]. intros s0 a. unfold exec. rewrite one. reflexivity. }
  8: reflexivity.
  all: unfold exec at 2; apply each_same; try (intros s0 [[a b] d]; unfold exec; rewrite one; reflexivity); try (intros s0 [[a b] d]; reflexivity); try reflexivity; intros s0 a; unfold exec; rewrite one; reflexivity.
Qed.
Lemma longhand_same cs : forall s, run E off s (longhand E s cs) = run E off s cs.
Proof.
  induction cs as [|c cs IH]; intros s; [reflexivity|]. cbn [longhand]. unfold run in *. rewrite many_app. pose proof (longhand_of_same s c) as H. unfold run in H. rewrite H. cbn [many].
  pose proof (exec_pen s c) as Hp. destruct (exec E off s c) as [s1 o1]. cbn [fst] in Hp. rewrite Hp, IH. reflexivity.
Qed.
Lemma each_closes {A} (f : pen -> A -> pen * list op) (g : pen -> A -> cmd) b r : (forall s a, closes_open E b (g s a :: r) = closes_open E b r) ->
  (forall s a q, closes_open E b (g s a :: q) = closes_open E b q) -> forall l s, closes_open E b (each E f g s l ++ r) = closes_open E b r.
Proof. intros _ H. induction l as [|a l IH]; intros s; [reflexivity|]. cbn [each app]. rewrite H. apply IH. Qed.
Lemma longhand_closes cs : forall b s, closes_open E b (longhand E s cs) = closes_open E b cs.
Proof.
  induction cs as [|c cs IH]; intros b s; [reflexivity|]. cbn [longhand].
  destruct c as [rel p ps|rel p ps|rel p ps|rel p ps|rel p ps|rel p ps|rel p ps|rel p ps|]; cbn [longhand_of closes_open];
    try (rewrite each_closes; [apply IH|reflexivity|reflexivity]).
  - cbv zeta. cbn [app closes_open]. rewrite each_closes; [apply IH|reflexivity|reflexivity].
  - cbn [app closes_open]. now rewrite IH.
Qed.
Lemma each_long {A} (f : pen -> A -> pen * list op) (g : pen -> A -> cmd) : (forall s a, long_cmd E (g s a) = true) -> forall l s, forallb (long_cmd E) (each E f g s l) = true.
Proof. intros H. induction l as [|a l IH]; intros s; [reflexivity|]. cbn. rewrite H. apply IH. Qed.
Lemma longhand_long cs : forall s, forallb (long_cmd E) (longhand E s cs) = true.
Proof.
  induction cs as [|c cs IH]; intros s; [reflexivity|]. cbn [longhand]. rewrite forallb_app, IH, Bool.andb_true_r.
  destruct c as [rel p ps|rel p ps|rel p ps|rel p ps|rel p ps|rel p ps|rel p ps|rel p ps|]; cbn [longhand_of]; cbv zeta; cbn [forallb long_cmd andb]; try (apply each_long; reflexivity); reflexivity.
Qed.
End Long.

Theorem spelled_alike (E : Env) (add_comm : forall a b, fadd E a b = fadd E b a) (s t : string) (cs ds : list (cmd E)) (c : pcur E) :
  spells E s cs -> spells E t ds -> closes_open E false cs = true -> longhand E (pen0 E) cs = longhand E (pen0 E) ds ->
  exists c1 c2, compilePath s c = (c1, Ret tt) /\ compilePath t c = (c2, Ret tt) /\ pc_path c1 = pc_path c2
    /\ (pc_placeX c1, pc_placeY c1) = (pc_placeX c2, pc_placeY c2) /\ pc_log c1 = pc_log c2.
Proof.
  intros Hs Ht Hc Hl. assert (Hd : closes_open E false ds = true) by (rewrite <- (longhand_closes ds false (pen0 E)), <- Hl, longhand_closes; exact Hc).
  destruct (compilePath_draws add_comm s cs c Hs Hc) as (c1 & H1 & P1 & A1 & L1). destruct (compilePath_draws add_comm t ds c Ht Hd) as (c2 & H2 & P2 & A2 & L2).
  exists c1, c2. split; [exact H1|]. split; [exact H2|]. unfold draws in *.
  assert (R : run E (pc_curX c, pc_curY c) (pen0 E) cs = run E (pc_curX c, pc_curY c) (pen0 E) ds) by (rewrite <- (longhand_same _ cs), Hl; apply longhand_same).
  rewrite P1, P2, A1, A2, R. repeat split. congruence.
Qed.
Lemma each_idem {E : Env} cs : forallb (long_cmd E) cs = true -> forall s, longhand E s cs = cs.
Proof.
  induction cs as [|c cs IH]; intros H s; [reflexivity|]. cbn in H. apply Bool.andb_true_iff in H as [H1 H2]. cbn [longhand]. rewrite IH by exact H2.
  destruct c as [[] p []|[] p []|[] p ps|[] p ps|[] [p q] []|[] p ps|[] [[p q] r] []|[] p ps|]; try discriminate; reflexivity.
Qed.
Theorem written_out (E : Env) (add_comm : forall a b, fadd E a b = fadd E b a) (s t : string) (cs : list (cmd E)) (c : pcur E) :
  spells E s cs -> closes_open E false cs = true -> spells E t (longhand E (pen0 E) cs) ->
  forallb (long_cmd E) (longhand E (pen0 E) cs) = true
  /\ exists c1 c2, compilePath s c = (c1, Ret tt) /\ compilePath t c = (c2, Ret tt) /\ pc_path c1 = pc_path c2
    /\ (pc_placeX c1, pc_placeY c1) = (pc_placeX c2, pc_placeY c2) /\ pc_log c1 = pc_log c2.
Proof.
  intros Hs Hc Ht. pose proof (longhand_long cs (pen0 E)) as Hl. split; [exact Hl|]. apply (spelled_alike E add_comm s t cs _ c Hs Ht Hc). symmetry. now apply each_idem.
Qed.

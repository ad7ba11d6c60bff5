(** * ProofsSize: how many path operations an element draws *)
From Coq Require Import Lia.
From Verif Require Import ProofsStr ProofsSeg.
From Verif Require Export SpecSize Logic.
Local Open Scope go_scope.

(** positions that go up and stay below [n] *)
Fixpoint rising (lo n : nat) (rs : list (nat * N)) : Prop :=
  match rs with [] => True | (i, _) :: r => lo <= i < n /\ rising (S i) n r end.
Lemma rising_offs l : forall lo, Forall (fun p => snd p <> EmptyString) l -> rising lo (lo + String.length (bytes l)) (offs lo l).
Proof.
  induction l as [|[u b] l IH]; intros lo H; [exact I|]. inversion H; subst. cbn [snd] in *. cbn [offs rising].
  rewrite bytes_cons, len_app. destruct b as [|a b]; [congruence|].
  change (ProofsStr.len (String a b)) with (S (String.length b)). specialize (IH (lo + S (String.length b)) H3). revert IH.
  generalize (String.length (bytes l)) (String.length b). intros n k IH. split; [lia|].
  replace (lo + (S k + n)) with (lo + S k + n) by lia. destruct (offs (lo + S k) l) as [|[i v] r]; cbn [rising] in *; [auto|]. destruct IH as [K1 K2]. split; [lia|exact K2].
Qed.
Lemma rising_range s : rising 0 (String.length s) (range_str s).
Proof. rewrite range_runes. rewrite <- (bytes_runes s) at 1. apply (rising_offs (runes s) 0), runes_ne. Qed.
Lemma rising_len rs : forall lo n, rising lo n rs -> List.length rs + lo <= n \/ rs = [].
Proof.
  induction rs as [|[i v] r IH]; intros lo n H; [auto|]. left. cbn [rising List.length] in *. destruct H as [H1 H2].
  destruct (IH _ _ H2) as [K| ->]; cbn; lia.
Qed.
Lemma range_len s : List.length (range_str s) <= String.length s.
Proof. destruct (rising_len _ _ _ (rising_range s)) as [H| ->]; cbn; lia. Qed.
Lemma slice_len s a b w : slice s a b = Ret w -> String.length w = b - a /\ a <= b <= String.length s.
Proof.
  unfold slice. destruct (_ && _) eqn:H; [|discriminate]. apply andb_prop in H as [H1 H2]. apply Nat.leb_le in H1, H2.
  intros K. injection K as <-. split; [|lia]. clear H1. revert a b H2. induction s as [|c s IH]; intros a b H; cbn in *.
  - replace b with 0 by lia. destruct a; reflexivity.
  - destruct a as [|a]; cbn.
    + rewrite Nat.sub_0_r. destruct b as [|b]; cbn; [reflexivity|]. f_equal. specialize (IH 0 b ltac:(lia)). rewrite Nat.sub_0_r in IH. exact IH.
    + destruct b as [|b]; cbn. { specialize (IH a 0 ltac:(lia)). exact IH. } apply IH. lia.
Qed.
Lemma upd_len {A} (l : list A) n y l' : upd l n y = Ret l' -> List.length l' = List.length l.
Proof.
  intros H. destruct (Nat.lt_ge_cases n (List.length l)) as [K|K].
  - destruct (upd_ok l n y K) as (l2 & H2 & H3). congruence.
  - revert n l' H K. induction l as [|a l IH]; intros n l' H K; cbn in *; [destruct n; discriminate|]. destruct n as [|n]; [lia|].
    cbn in H. destruct (upd l n y) as [l2| | |] eqn:Hu; try discriminate. injection H as <-. cbn. f_equal. eapply IH; [exact Hu|lia].
Qed.

Section Size.
Context {E : Env}.
Notation F := (F E).
Notation pcur := (pcur E).
Definition plen (c : pcur) : nat := List.length (pc_path c).
Definition nlen (c : pcur) : nat := List.length (pc_points c).

(** ** Readers of numbers *)
Definition same_path (c c' : pcur) : Prop := pc_path c' = pc_path c.
(** [m] adds at most [n] numbers and draws nothing *)
Definition reads {A} (n : nat) (m : M pcur A) : Prop := forall c, pc_path (fst (m c)) = pc_path c /\ nlen (fst (m c)) <= nlen c + n.
Lemma reads_bind {A B} n k (m : M pcur A) (f : A -> M pcur B) : reads n m -> (forall a, reads k (f a)) -> reads (n + k) (bind m f).
Proof.
  intros H1 H2 c. unfold bind. specialize (H1 c). destruct (m c) as [c1 [a|e| |]]; cbn [fst] in *; [|split; [apply H1|lia]..].
  specialize (H2 a c1). destruct H1 as [P1 L1], H2 as [P2 L2]. split; [congruence|lia].
Qed.
Lemma reads_more {A} n k (m : M pcur A) : reads n m -> n <= k -> reads k m.
Proof. intros H Hk c. destruct (H c). split; [assumption|lia]. Qed.
Lemma reads_lift {A} (o : outcome A) : reads 0 (lift o). Proof. intros c. unfold lift. cbn. split; [reflexivity|lia]. Qed.
Lemma reads_ret {A} (a : A) : reads 0 (ret a). Proof. intros c. cbn. split; [reflexivity|lia]. Qed.
Lemma reads_push s : reads 1 (pushFloat (E := E) s).
Proof.
  unfold pushFloat. apply (reads_bind 0 1); [apply reads_lift|]. intros f c. unfold nlen. cbn. rewrite app_length. cbn. split; [reflexivity|lia].
Qed.
Lemma reads_float_loop s rs : forall last, reads (List.length rs - 1) (readFloat_loop (E := E) s rs last true) /\ reads (List.length rs) (readFloat_loop (E := E) s rs last false).
Proof.
  induction rs as [|[i n] r IH]; intros last; cbn [readFloat_loop List.length]; [split; apply reads_ret|]. destruct (n =? 46)%N.
  - split.
    + eapply reads_more; [apply IH|lia].
    + apply (reads_bind 0 (S (List.length r))); [apply reads_lift|]. intros w. apply (reads_bind 1 (List.length r)); [apply reads_push|]. intros []. apply IH.
  - split; (eapply reads_more; [apply IH|lia]).
Qed.
Lemma reads_float s : 1 <= String.length s -> reads (String.length s) (readFloat (E := E) s).
Proof.
  intros H. pose proof (range_len s). unfold readFloat. apply reads_more with (n := (List.length (range_str s) - 1) + (0 + 1)); [|lia].
  apply reads_bind; [apply reads_float_loop|]. intros last. apply reads_bind; [apply reads_lift|]. intros w. apply reads_push.
Qed.
(** the text that is still to be read: what comes after the start [last] of a number, or else from [lo] on *)
Definition to_read (n lo : nat) (last : option nat) : nat := n - match last with Some li => li | None => lo end.
Definition below (n : nat) (last : option nat) : Prop := match last with Some li => li < n | None => True end.
Lemma reads_points_loop s rs : forall last lr lo, rising lo (String.length s) rs -> below lo last -> below (String.length s) last ->
  forall c, let '(c', o) := getPoints_loop (E := E) s rs last lr c in
    pc_path c' = pc_path c
    /\ match o with
       | Ret last' => nlen c' + to_read (String.length s) (String.length s) last' <= nlen c + to_read (String.length s) lo last /\ below (String.length s) last'
       | _ => nlen c' <= nlen c + to_read (String.length s) lo last
       end.
Proof.
  induction rs as [|[i r] rs IH]; intros last lr lo Hr Hlo Hn c; cbn [getPoints_loop].
  { cbn. split; [reflexivity|]. split; [|exact Hn]. unfold to_read. destruct last; lia. }
  cbn [rising] in Hr. destruct Hr as [Hi Hr]. destruct (inNumber lr r) eqn:Hin; cbn [negb].
  - specialize (IH (match last with None => Some i | Some li => Some li end) r (S i) Hr).
    specialize (IH ltac:(destruct last; cbn in *; lia) ltac:(destruct last; cbn in *; lia) c).
    destruct (getPoints_loop s rs _ r c) as [c' o]. destruct IH as [H1 H2]. split; [exact H1|].
    assert (K : to_read (String.length s) (S i) (match last with None => Some i | Some li => Some li end) <= to_read (String.length s) lo last) by (unfold to_read; destruct last; lia).
    destruct o as [l'|e| |]; [destruct H2; split; [lia|assumption]|lia..].
  - specialize (IH (if (r =? 45)%N then Some i else None) r (S i) Hr).
    specialize (IH ltac:(destruct (r =? 45)%N; cbn; lia) ltac:(destruct (r =? 45)%N; cbn; lia)).
    assert (K : to_read (String.length s) (S i) (if (r =? 45)%N then Some i else None) <= String.length s - i) by (unfold to_read; destruct (r =? 45)%N; lia).
    destruct last as [li|].
    + cbn [below] in *. unfold bind, lift. destruct (slice s li i) as [w|e| |] eqn:Hw; [|split; [reflexivity|lia]..].
      apply slice_len in Hw as [Lw _]. pose proof (reads_float w ltac:(lia) c) as Hf. destruct (readFloat w c) as [c1 [[]|e| |]]; cbn [fst] in Hf; [|split; [apply Hf|unfold to_read; lia]..].
      specialize (IH c1). destruct (getPoints_loop s rs _ r c1) as [c' o]. destruct Hf as [F1 F2], IH as [H1 H2]. split; [congruence|].
      unfold to_read at 1 in H2. unfold to_read. unfold to_read in K. destruct o as [l'|e| |]; [destruct H2; split; [|assumption]|..]; unfold to_read in *; lia.
    + unfold bind, ret. specialize (IH c). destruct (getPoints_loop s rs _ r c) as [c' o]. destruct IH as [H1 H2]. split; [exact H1|].
      unfold to_read in *. destruct o as [l'|e| |]; [destruct H2; split; [|assumption]|..]; lia.
Qed.
Lemma getPoints_len s c : pc_path (fst (getPoints (E := E) s c)) = pc_path c /\ nlen (fst (getPoints (E := E) s c)) <= String.length s.
Proof.
  unfold getPoints, bind, modify. set (c0 := set_points [] c).
  pose proof (reads_points_loop s (range_str s) None 32 0 (rising_range s) I I c0) as H.
  destruct (getPoints_loop s (range_str s) None 32 c0) as [c1 [last|e| |]]; destruct H as [H1 H2]; unfold to_read in *; change (nlen c0) with 0 in H2; [|split; [exact H1|cbn beta iota zeta delta [fst]; lia]..].
  destruct last as [li|]; [|split; [exact H1|cbn beta iota zeta delta [fst ret]; lia]]. cbn [below] in H2. destruct (li =? String.length s); [split; [exact H1|cbn beta iota zeta delta [fst ret]; lia]|].
  unfold lift. destruct (slice s li (String.length s)) as [w|e| |] eqn:Hw; [|split; [exact H1|cbn beta iota zeta delta [fst]; lia]..].
  apply slice_len in Hw as [Lw _]. destruct (reads_float w ltac:(lia) c1) as [F1 F2]. split; [etransitivity; [exact F1|exact H1]|lia].
Qed.

(** ** Segments *)
(** from a state with at most [q] numbers, [m] adds at most [n] operations and keeps at most [q] numbers *)
Definition hp {A} (n q : nat) (m : M pcur A) : Prop := forall c, nlen c <= q -> plen (fst (m c)) <= plen c + n /\ nlen (fst (m c)) <= q.
Lemma hp_bind {A B} n k q (m : M pcur A) (f : A -> M pcur B) : hp n q m -> (forall a, hp k q (f a)) -> hp (n + k) q (bind m f).
Proof.
  intros H1 H2 c Hc. unfold bind. specialize (H1 c Hc). destruct (m c) as [c1 [a|e| |]]; cbn [fst] in *; [|split; [lia|apply H1]..].
  destruct H1 as [H1 H3]. specialize (H2 a c1 H3). split; [lia|apply H2].
Qed.
Lemma hp_more {A} n k q (m : M pcur A) : hp n q m -> n <= k -> hp k q m.
Proof. intros H Hk c Hc. destruct (H c Hc). split; [lia|assumption]. Qed.
Lemma hp_idle {A} q (m : M pcur A) : (forall c, pc_path (fst (m c)) = pc_path c /\ nlen (fst (m c)) <= nlen c) -> hp 0 q m.
Proof. intros H c Hc. destruct (H c) as [H1 H2]. unfold plen. rewrite H1. split; lia. Qed.
Lemma hp_ret {A} q (a : A) : hp 0 q (ret a). Proof. apply hp_idle. intros c. auto. Qed.
Lemma hp_raise {A} q e : hp 0 q (@raise pcur A e). Proof. apply hp_idle. intros c. auto. Qed.
Lemma hp_lift {A} q (o : outcome A) : hp 0 q (lift o). Proof. apply hp_idle. intros c. auto. Qed.
Lemma hp_gets {A} q (f : pcur -> A) : hp 0 q (gets f). Proof. apply hp_idle. intros c. auto. Qed.
Lemma hp_pnt q i : hp 0 q (pnt (E := E) i). Proof. apply hp_idle. intros c. auto. Qed.
Lemma hp_fxp q x y : hp 0 q (fxp (E := E) x y). Proof. apply hp_gets. Qed.
Lemma hp_fxpt q i : hp 0 q (fxpt (E := E) i).
Proof. apply (hp_bind 0 0); [apply hp_pnt|]. intros x. apply (hp_bind 0 0); [apply hp_pnt|]. intros y. apply hp_fxp. Qed.
Lemma hp_modify q (f : pcur -> pcur) : (forall c, pc_path (f c) = pc_path c /\ nlen (f c) <= nlen c) -> hp 0 q (modify f).
Proof. intros H. apply hp_idle. exact H. Qed.
Lemma hp_onPath q f : (forall p, List.length (f p) <= List.length p + 1) -> hp 1 q (onPath (E := E) f).
Proof. intros H c Hc. unfold onPath, modify, plen, nlen in *. cbn. split; [apply H|assumption]. Qed.
Lemma pLine1 b p : List.length (pLine b p) <= List.length p + 1. Proof. unfold pLine. rewrite app_length. cbn. lia. Qed.
Lemma pStart1 b p : List.length (pStart b p) <= List.length p + 1. Proof. unfold pStart. rewrite app_length. cbn. lia. Qed.
Lemma pQuad1 a b p : List.length (pQuad a b p) <= List.length p + 1. Proof. unfold pQuad. rewrite app_length. cbn. lia. Qed.
Lemma pCube1 a b d p : List.length (pCube a b d p) <= List.length p + 1. Proof. unfold pCube. rewrite app_length. cbn. lia. Qed.
Lemma pStop1 b p : List.length (pStop b p) <= List.length p + 1. Proof. unfold pStop. destruct b; rewrite ?app_length; cbn; lia. Qed.
Lemma hp_loop n q body : (forall i, hp n q (body i)) -> forall fuel i step bound, 1 <= step -> hp (n * (bound - i)) q (loop fuel i step bound body).
Proof.
  intros Hb. induction fuel as [|fuel IH]; intros i step bound Hs; cbn [loop]; destruct (i <? bound) eqn:Hi.
  - apply Nat.ltb_lt in Hi. intros c Hc. split; [apply Nat.le_add_r|exact Hc].
  - eapply hp_more; [apply hp_ret|apply Nat.le_0_l].
  - apply Nat.ltb_lt in Hi. apply hp_more with (n := n + n * (bound - (i + step))).
    + apply hp_bind; [apply Hb|]. intros []. apply IH, Hs.
    + replace (bound - i) with (S (bound - i - 1)) by lia. rewrite Nat.mul_succ_r. assert (n * (bound - (i + step)) <= n * (bound - i - 1)) by (apply Nat.mul_le_mono_l; lia). lia.
  - eapply hp_more; [apply hp_ret|apply Nat.le_0_l].
Qed.
Lemma hp_mapM {A} n q (f : A -> M pcur unit) l : (forall a, hp n q (f a)) -> hp (n * List.length l) q (mapM f l).
Proof.
  intros H. induction l as [|a l IH]; cbn [mapM List.length]; [eapply hp_more; [apply hp_ret|apply Nat.le_0_l]|].
  eapply hp_more; [apply hp_bind; [apply H|intros; apply IH]|lia].
Qed.
Lemma abs_inner_len fuel : forall i j sz x y (p p' : list F), abs_inner fuel i j sz x y p = Ret p' -> List.length p' = List.length p.
Proof.
  induction fuel as [|fuel IH]; intros i j sz x y p p' H; cbn [abs_inner] in H; destruct (i <? sz); try discriminate; try (injection H as <-; reflexivity).
  destruct (idx p (i + j)) as [a| | |]; try discriminate. cbn [obind] in H. destruct (upd p (i + j) _) as [p1| | |] eqn:H1; try discriminate. cbn [obind] in H.
  destruct (idx p1 (i + 1 + j)) as [b| | |]; try discriminate. cbn [obind] in H. destruct (upd p1 (i + 1 + j) _) as [p2| | |] eqn:H2; try discriminate. cbn [obind] in H.
  apply IH in H. apply upd_len in H1, H2. congruence.
Qed.
Lemma abs_outer_len fuel : forall j sz x y (p p' : list F), abs_outer fuel j sz x y p = Ret p' -> List.length p' = List.length p.
Proof.
  induction fuel as [|fuel IH]; intros j sz x y p p' H; cbn [abs_outer] in H; destruct (j <? List.length p); try discriminate; try (injection H as <-; reflexivity).
  destruct (abs_inner sz 0 j sz x y p) as [p1| | |] eqn:H1; try discriminate. cbn [obind] in H. apply abs_inner_len in H1.
  destruct (idx p1 (j + sz - 2)) as [a| | |]; try discriminate. cbn [obind] in H. destruct (idx p1 (j + sz - 1)) as [b| | |]; try discriminate. cbn [obind] in H.
  apply IH in H. congruence.
Qed.
Lemma hp_pointsToAbs q sz : hp 0 q (pointsToAbs (E := E) sz).
Proof.
  apply hp_idle. intros c. unfold pointsToAbs. destruct (abs_outer _ _ _ _ _ _) as [p| | |] eqn:H; cbn; auto.
  apply abs_outer_len in H. unfold nlen. cbn. split; [reflexivity|lia].
Qed.
Lemma hp_if {A} n q (b : bool) (m k : M pcur A) : hp n q m -> hp n q k -> hp n q (if b then m else k).
Proof. destruct b; auto. Qed.
Lemma hp_requireSets q sz rel : hp 0 q (requireSets (E := E) sz rel).
Proof.
  unfold requireSets, hasSetsOrMore. apply (hp_bind 0 0).
  - apply (hp_bind 0 0); [apply hp_gets|]. intros ps. apply hp_if; [apply hp_ret|]. apply (hp_bind 0 0); [apply hp_if; [apply hp_pointsToAbs|apply hp_ret]|]. intros []. apply hp_ret.
  - intros ok. apply hp_if; [apply hp_ret|apply hp_raise].
Qed.
Lemma vals_len (l : list F) : forall x, List.length (vals_abs (E := E) x l) = List.length l.
Proof. induction l as [|a l IH]; intros x; cbn; [reflexivity|]. rewrite IH. reflexivity. Qed.
Lemma hp_moveTo q i : hp 0 q (moveTo (E := E) i).
Proof. unfold moveTo. apply (hp_bind 0 0); [apply hp_pnt|]. intros x. apply (hp_bind 0 0); [apply hp_pnt|]. intros y. apply hp_modify. intros c. auto. Qed.
Lemma hp_setpts q (ps : list F) : List.length ps <= q -> hp 0 q (modify (set_points (E := E) ps)).
Proof. intros H c Hc. unfold plen, nlen. cbn. split; [lia|exact H]. Qed.

(** ** Arcs *)
Context (A : nat) (A1 : 1 <= A)
  (HA : forall ps cx cy px py (p : path) p' l, addArc (E := E) ps cx cy px py p = Ret (p', l) -> List.length p' <= List.length p + A).
Lemma hp_state {B} n q (k : pcur -> M pcur B) : (forall c, nlen c <= q -> plen (fst (k c c)) <= plen c + n /\ nlen (fst (k c c)) <= q) -> hp n q (bind (gets (fun c => c)) k).
Proof. intros H c Hc. apply (H c Hc). Qed.
Ltac hs := repeat first
  [ match goal with
    | |- hp _ _ (ret _) => apply hp_ret
    | |- hp _ _ (lift _) => apply hp_lift
    | |- hp _ _ (gets _) => apply hp_gets
    | |- hp _ _ (pnt _) => apply hp_pnt
    | |- hp _ _ (fxp _ _) => apply hp_fxp
    | |- hp _ _ (fxpt _) => apply hp_fxpt
    | |- hp _ _ (moveTo _) => apply hp_moveTo
    | |- hp _ _ (requireSets _ _) => apply hp_requireSets
    | |- hp _ _ (onPath (pLine _)) => apply hp_onPath, pLine1
    | |- hp _ _ (onPath (pStart _)) => apply hp_onPath, pStart1
    | |- hp _ _ (onPath (pQuad _ _)) => apply hp_onPath, pQuad1
    | |- hp _ _ (onPath (pCube _ _ _)) => apply hp_onPath, pCube1
    | |- hp _ _ (onPath (pStop _)) => apply hp_onPath, pStop1
    | |- hp _ _ (modify _) => apply hp_modify; intros ?; auto
    | |- hp _ _ (bind _ _) => eapply hp_bind; [|intros ?]
    | |- hp _ _ (loop _ _ _ _ _) => apply hp_loop; [intros ?|lia]
    | |- hp _ _ (if _ then _ else _) => apply hp_if
    | |- hp _ _ (match ?x with _ => _ end) => destruct x
    end ].
Lemma hp_lift_at {B} {X} n q (o : outcome X) (k : X -> M pcur B) c :
  (forall x, o = Ret x -> plen (fst (k x c)) <= plen c + n /\ nlen (fst (k x c)) <= q) -> nlen c <= q ->
  plen (fst (bind (lift o) k c)) <= plen c + n /\ nlen (fst (bind (lift o) k c)) <= q.
Proof. intros H Hc. unfold bind, lift. destruct o; cbn [fst]; [apply H; reflexivity|split; [lia|exact Hc]..]. Qed.
Lemma hp_addPlaceAt q i : hp 0 q (addPlaceAt (E := E) i).
Proof.
  unfold addPlaceAt. apply (hp_bind 0 0); [apply hp_pnt|]. intros x. apply hp_state. intros c Hc. apply (hp_lift_at 0); [|exact Hc]. intros ps Hps. apply upd_len in Hps.
  refine ((_ : hp 0 q _) c Hc). apply (hp_bind 0 0); [apply hp_setpts; unfold nlen in Hc; lia|]. intros []. apply (hp_bind 0 0); [apply hp_pnt|]. intros y.
  apply hp_state. intros c1 Hc1. apply (hp_lift_at 0); [|exact Hc1]. intros ps2 Hps2. apply upd_len in Hps2. refine ((_ : hp 0 q _) c1 Hc1). apply hp_setpts. unfold nlen in Hc1. lia.
Qed.
Lemma hp_arc_end q ps cx cy px py c : nlen c <= q ->
  let m := bind (lift (addArc (E := E) ps cx cy px py (pc_path c))) (fun '(p, (lx, ly)) => modify (fun c => set_place lx ly (set_path p c))) in
  plen (fst (m c)) <= plen c + A /\ nlen (fst (m c)) <= q.
Proof.
  intros Hc m. apply hp_lift_at; [|exact Hc]. intros [p [lx ly]] Hp. apply HA in Hp. unfold plen, nlen in *. cbn. split; [exact Hp|exact Hc].
Qed.
Lemma hp_addArcFromA q i : hp A q (addArcFromA (E := E) i).
Proof.
  unfold addArcFromA. do 7 (apply (hp_bind 0 A); [apply hp_pnt|intros ?]). apply hp_state. intros c Hc.
  destruct (findEllipseCenter _ _ _ _ _ _ _ _ _) as [[cx cy] [ra rb]].
  apply hp_lift_at; [|exact Hc]. intros ps1 H1. apply upd_len in H1. apply hp_lift_at; [|exact Hc]. intros ps2 H2. apply upd_len in H2.
  unfold bind at 1, modify at 1. assert (Hn : nlen (set_points ps2 c) <= q) by (unfold nlen in *; cbn; lia).
  pose proof (hp_arc_end q ps2 (fadd E cx (pc_curX c)) (fadd E cy (pc_curY c)) (fadd E (pc_placeX c) (pc_curX c)) (fadd E (pc_placeY c) (pc_curY c)) (set_points ps2 c) Hn) as H.
  exact H.
Qed.
Lemma hp_segZ q : hp 1 q (segZ (E := E)).
Proof.
  unfold segZ. apply (hp_bind 0 1); [apply hp_gets|]. intros [|f ps]; [|eapply hp_more; [apply hp_raise|lia]].
  apply (hp_bind 0 1); [apply hp_gets|]. intros [|]; [|eapply hp_more; [apply hp_ret|apply Nat.le_0_l]]. eapply hp_more; [hs|lia].
Qed.
Lemma hp_vals q (f : M pcur F) : (forall c, fst (f c) = c) -> hp 0 q (bind f (fun y => valsToAbs (E := E) y)).
Proof.
  intros H. apply (hp_bind 0 0).
  - apply hp_idle. intros c. rewrite H. auto.
  - intros y. apply hp_idle. intros c. unfold nlen. cbn. rewrite vals_len. auto.
Qed.
Lemma hp_points {B} n q (k : list F -> M pcur B) : (forall ps, List.length ps <= q -> hp n q (k ps)) -> hp n q (bind (points (E := E)) k).
Proof. intros H c Hc. apply (H (pc_points c) Hc c Hc). Qed.
Lemma hp_segA rel l : hp (A * l) l (segA (E := E) rel l).
Proof.
  unfold segA. apply hp_more with (n := 0 + (0 + A) * (l - 6 - 0)).
  - apply hp_bind; [apply hp_requireSets|]. intros []. apply hp_loop; [|lia]. intros i. apply hp_bind; [apply hp_if; [apply hp_addPlaceAt|apply hp_ret]|]. intros []. apply hp_addArcFromA.
  - cbn [Nat.add]. apply Nat.mul_le_mono_l. lia.
Qed.
Lemma hp_segV rel l : hp l l (segV (E := E) rel l).
Proof.
  unfold segV. apply (hp_bind 0 l); [apply hp_if; [apply hp_vals; reflexivity|apply hp_ret]|]. intros []. apply (hp_bind 0 l); [apply hp_requireSets|]. intros [].
  apply hp_points. intros ps Hps. eapply hp_more; [eapply hp_bind; [apply hp_mapM; intros; hs|intros; hs]|lia].
Qed.
Lemma hp_segH rel l : hp l l (segH (E := E) rel l).
Proof.
  unfold segH. apply (hp_bind 0 l); [apply hp_if; [apply hp_vals; reflexivity|apply hp_ret]|]. intros []. apply (hp_bind 0 l); [apply hp_requireSets|]. intros [].
  apply hp_points. intros ps Hps. eapply hp_more; [eapply hp_bind; [apply hp_mapM; intros; hs|intros; hs]|lia].
Qed.
Lemma hp_reflectQ q : hp 0 q (reflectControlQuad (E := E)).
Proof. apply hp_modify. intros c. destruct (is_key _ _); [|auto]. destruct (reflect _ _ _ _). auto. Qed.
Lemma hp_reflectC q : hp 0 q (reflectControlCube (E := E)).
Proof. apply hp_modify. intros c. destruct (is_key _ _); [|auto]. destruct (reflect _ _ _ _). auto. Qed.
Lemma hp_segT k rel l : hp l l (segT (E := E) k rel l).
Proof. eapply hp_more; [unfold segT; hs; apply hp_reflectQ|lia]. Qed.
Lemma hp_segS k rel l : hp l l (segS (E := E) k rel l).
Proof. eapply hp_more; [unfold segS; hs; apply hp_reflectC|lia]. Qed.
Lemma hp_segUnknown q k : hp 0 q (segUnknown (E := E) k).
Proof. unfold segUnknown. apply (hp_bind 0 0); [apply hp_gets|]. intros [| |]; [apply hp_ret|apply hp_modify; intros c; auto|apply hp_raise]. Qed.
Lemma hp_segSwitch k l : hp (A * l + 1) l (segSwitch (E := E) k l).
Proof.
  assert (L : l <= A * l) by (destruct A; [lia|]; cbn; lia).
  unfold segSwitch. repeat match goal with |- hp _ _ (if _ then _ else _) => apply hp_if end.
  all: first [ eapply hp_more; [apply hp_segZ|lia] | eapply hp_more; [apply hp_segA|lia] | eapply hp_more; [apply hp_segV|lia] | eapply hp_more; [apply hp_segH|lia]
    | eapply hp_more; [apply hp_segT|lia] | eapply hp_more; [apply hp_segS|lia] | eapply hp_more; [apply hp_segUnknown|lia] 
    | eapply hp_more; [unfold segM; hs|lia] | eapply hp_more; [unfold segL; hs|lia] | eapply hp_more; [unfold segQ; hs|lia] | eapply hp_more; [unfold segC; hs|lia] ].
Qed.
(** [m] adds at most [n] operations *)
Definition grows {B} (n : nat) (m : M pcur B) : Prop := forall c, plen (fst (m c)) <= plen c + n.
Lemma addSeg_grows s : grows (A * String.length s) (addSeg (E := E) s).
Proof.
  intros c. unfold addSeg, bind, lift. destruct (slice s 1 (String.length s)) as [w|e| |] eqn:Hw; [|apply Nat.le_add_r..].
  apply slice_len in Hw as [Lw [L1 _]]. destruct (getPoints_len w c) as [G1 G2]. unfold plen in *.
  destruct (getPoints w c) as [c1 [[]|e| |]]; cbn [fst] in *; [|cbn beta iota zeta delta [fst]; rewrite G1; apply Nat.le_add_r..].
  cbn beta iota zeta delta [points gets]. destruct (byteat s 0) as [k|e| |]; [|cbn beta iota zeta delta [fst]; rewrite G1; apply Nat.le_add_r..].
  destruct (hp_segSwitch k (nlen c1) c1 (Nat.le_refl _)) as [S1 _]. unfold plen in S1. fold (nlen c1).
  assert (K : A * nlen c1 + 1 <= A * String.length s).
  { apply Nat.le_trans with (A * (nlen c1 + 1)); [lia|]. apply Nat.mul_le_mono_l. lia. }
  rewrite G1 in S1. destruct (segSwitch k (nlen c1) c1) as [c2 [[]|e| |]]; cbn beta iota zeta delta [fst modify set_lastKey pc_path] in *; lia.
Qed.
Lemma compile_loop_grows s rs : forall last lo, rising lo (String.length s) rs -> below (S (String.length s)) last -> below lo last ->
  forall c, let '(c', o) := compile_loop (E := E) s rs last c in
    match o with
    | Ret last' => plen c' + A * to_read (String.length s) (String.length s) last' <= plen c + A * to_read (String.length s) lo last
    | _ => plen c' <= plen c + A * to_read (String.length s) lo last
    end.
Proof.
  induction rs as [|[i v] rs IH]; intros last lo Hr Hb Hlo c; cbn [compile_loop].
  { cbn beta iota delta [ret]. apply Nat.add_le_mono_l, Nat.mul_le_mono_l. unfold to_read. destruct last; lia. }
  cbn [rising] in Hr. destruct Hr as [Hi Hr]. destruct (isLetter E v && negb (v =? 101)%N).
  - specialize (IH (Some i) (S i) Hr ltac:(cbn; lia) ltac:(cbn; lia)). destruct last as [li|].
    + unfold bind, lift. destruct (slice s li i) as [w|e| |] eqn:Hw; [|apply Nat.le_add_r..].
      apply slice_len in Hw as [Lw [L1 L2]]. pose proof (addSeg_grows w c) as G. rewrite Lw in G. cbn [below] in Hlo.
      assert (K : A * (i - li) + A * (String.length s - i) = A * (String.length s - li)) by (rewrite <- Nat.mul_add_distr_l; f_equal; lia).
      unfold to_read in *. pose proof (Nat.le_0_l (A * (String.length s - i))). destruct (addSeg w c) as [c1 [[]|e| |]]; cbn beta iota zeta delta [fst] in *; [|lia..].
      specialize (IH c1). destruct (compile_loop s rs (Some i) c1) as [c' [l'|e| |]]; lia.
    + unfold bind, ret. specialize (IH c). assert (K : A * (String.length s - i) <= A * (String.length s - lo)) by (apply Nat.mul_le_mono_l; lia).
      unfold to_read in *. destruct (compile_loop s rs (Some i) c) as [c' [l'|e| |]]; lia.
  - assert (Hlo' : below (S i) last) by (destruct last; cbn in *; lia). specialize (IH last (S i) Hr Hb Hlo' c).
    assert (K : A * to_read (String.length s) (S i) last <= A * to_read (String.length s) lo last) by (apply Nat.mul_le_mono_l; unfold to_read; destruct last; lia).
    destruct (compile_loop s rs last c) as [c' [l'|e| |]]; lia.
Qed.
Lemma compilePath_grows s : grows (A * String.length s) (compilePath (E := E) s).
Proof.
  intros c. unfold compilePath, bind, pinit, modify. set (c0 := set_inPath false _). assert (H0 : plen c0 = 0) by reflexivity. clearbody c0.
  pose proof (compile_loop_grows s (range_str s) None 0 (rising_range s) I I c0) as H. unfold to_read in H. rewrite Nat.sub_0_r in H.
  destruct (compile_loop s (range_str s) None c0) as [c1 [last|e| |]]; [|cbn [fst]; lia..].
  destruct last as [li|]; [|cbn [fst ret]; lia]. unfold lift. destruct (slice s li (String.length s)) as [w|e| |] eqn:Hw; [|cbn [fst]; lia..].
  apply slice_len in Hw as [Lw _]. pose proof (addSeg_grows w c1) as G. rewrite Lw in G. lia.
Qed.
Lemma hp_ellipseAt q cx cy rx ry : 7 <= q -> hp (A + 2) q (ellipseAt (E := E) cx cy rx ry).
Proof.
  intros Hq. unfold ellipseAt. apply (hp_bind 0 (A + 2)); [hs|]. intros []. apply (hp_bind 0 (A + 2)); [hs|]. intros c. cbv zeta.
  apply (hp_bind 0 (A + 2)); [apply hp_setpts; exact Hq|]. intros []. apply hp_more with (n := 1 + (A + 1)); [|lia].
  apply hp_bind; [hs|]. intros []. apply hp_state. intros c1 Hc1. apply hp_lift_at; [|exact Hc1]. intros [p [lx ly]] Hp. apply HA in Hp.
  unfold bind, modify, onPath. unfold plen, nlen in *. cbn [fst modify pc_path set_path set_place pc_points]. unfold pStop. rewrite app_length. cbn [List.length]. split; [lia|exact Hc1].
Qed.
Lemma ellipseAt_grows cx cy rx ry : grows (A + 2) (ellipseAt (E := E) cx cy rx ry).
Proof. intros c. apply (hp_ellipseAt (Nat.max 7 (nlen c)) cx cy rx ry); lia. Qed.
End Size.

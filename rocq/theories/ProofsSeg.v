(** * ProofsSeg: the cases of addSeg in closed form *)
From Coq Require Import Lia.
From Verif Require Export ProofsNum.
Local Open Scope go_scope.

(** ** lists *)
Lemma idx_app {A} (l r : list A) n x : n = length l -> idx (l ++ x :: r) n = Ret x.
Proof. intros ->. unfold idx. rewrite nth_error_app2, Nat.sub_diag by lia. reflexivity. Qed.
Lemma upd_app {A} (l r : list A) n x y : n = length l -> upd (l ++ x :: r) n y = Ret (l ++ y :: r).
Proof. intros ->. induction l as [|a l IH]; cbn; [reflexivity|]. rewrite IH. reflexivity. Qed.
Lemma idx_ok {A} (l : list A) n : n < length l -> exists x, idx l n = Ret x.
Proof.
  intros H. unfold idx. destruct (nth_error l n) eqn:K; [eauto|]. apply nth_error_None in K. lia.
Qed.
Lemma upd_ok {A} (l : list A) n y : n < length l -> exists l', upd l n y = Ret l' /\ length l' = length l.
Proof.
  revert n; induction l as [|a l IH]; intros n H; cbn in H; [lia|].
  destruct n as [|n]; cbn; [eauto|]. destruct (IH n) as (l' & -> & Hl); [lia|]. cbn. eexists; split; [reflexivity|].
  cbn; lia.
Qed.
Lemma last_snoc {A} (l : list A) x d : last (l ++ [x]) d = x.
Proof. induction l as [|a l IH]; [reflexivity|]. cbn. destruct (l ++ [x]) eqn:K; [destruct l; discriminate|]. exact IH. Qed.
Lemma snoc_inv {A} (l : list A) : l <> [] -> exists l' x, l = l' ++ [x].
Proof. intros H. destruct (exists_last H) as (l' & x & ->). eauto. Qed.

Section Seg.
Context {E : Env}.
Notation F := (F E).
Notation pcur := (pcur E).
Notation P := (@P E).
Notation point := (point E).
Notation p1 := (p1 E). Notation p2 := (p2 E). Notation p3 := (p3 E).

(** ** loops over argument sets *)
Lemma loop_sets {A} (enc : A -> list F) sz (body : nat -> P unit) (step : pcur -> A -> pcur)
  (J : pcur -> Prop)
  (Hsz : 0 < sz) (Henc : forall a, length (enc a) = sz)
  (Hbody : forall pre a post c, J c -> pc_points c = pre ++ enc a ++ post ->
     body (length pre) c = (step c a, Ret tt) /\ pc_points (step c a) = pc_points c /\ J (step c a)) :
  forall l pre c fuel bound, J c -> pc_points c = pre ++ flat_map enc l ->
  bound = length pre + length (flat_map enc l) - (sz - 1) -> length l <= fuel ->
  loop fuel (length pre) sz bound body c = (fold_left step l c, Ret tt).
Proof.
  induction l as [|a l IH]; intros pre c fuel bound HJ Hp -> Hf; cbn [flat_map length fold_left] in *.
  - replace (length pre + 0 - (sz - 1)) with (length pre - (sz - 1)) by lia.
    destruct fuel; cbn [loop]; destruct (Nat.ltb_spec (length pre) (length pre - (sz - 1))); try lia; reflexivity.
  - rewrite app_length, Henc. destruct fuel as [|fuel]; [lia|]. cbn [loop].
    destruct (Nat.ltb_spec (length pre) (length pre + (sz + length (flat_map enc l)) - (sz - 1))); [|lia].
    destruct (Hbody pre a (flat_map enc l) c HJ Hp) as (Hb & Hpt & HJ').
    unfold bind. rewrite Hb.
    assert (Hpre : length (pre ++ enc a) = length pre + sz) by (rewrite app_length, Henc; reflexivity).
    rewrite <- Hpre. apply IH; [exact HJ'|rewrite Hpt, Hp, app_assoc; reflexivity| |lia].
    rewrite Hpre. lia.
Qed.

Lemma flat_len {A} (enc : A -> list F) sz l : (forall a, length (enc a) = sz) ->
  length (flat_map enc l) = length l * sz.
Proof. intros H. induction l; cbn; [reflexivity|]. rewrite app_length, H, IHl. reflexivity. Qed.

(** ** pointsToAbs *)
Definition shiftp (cur p : point) : point := (fadd E (fst p) (fst cur), fadd E (snd p) (snd cur)).

Lemma abs_inner_eq (cur : point) todo : forall pre done post fuel i j sz p,
  p = pre ++ flat_map p1 done ++ flat_map p1 todo ++ post ->
  j = length pre -> i = 2 * length done -> sz = 2 * (length done + length todo) -> length todo <= fuel ->
  abs_inner fuel i j sz (fst cur) (snd cur) p
  = Ret (pre ++ flat_map p1 (done ++ map (shiftp cur) todo) ++ post).
Proof.
  induction todo as [|[x y] todo IH]; intros pre done post fuel i j sz p -> -> -> -> Hf.
  - replace (2 * (length done + length (@nil point))) with (2 * length done) by (cbn; lia).
    cbn [map flat_map]. rewrite !app_nil_r. cbn [app].
    destruct fuel; cbn [abs_inner]; rewrite Nat.ltb_irrefl; reflexivity.
  - cbn [length map] in *. destruct fuel as [|fuel]; [lia|]. cbn [abs_inner].
    destruct (Nat.ltb_spec (2 * length done) (2 * (length done + S (length todo)))); [|lia].
    assert (HL : length (flat_map p1 done) = 2 * length done) by (rewrite (flat_len p1 2); [lia|reflexivity]).
    cbn [flat_map p1 fst snd app SpecPath.p1].
    rewrite app_assoc.
    rewrite idx_app by (rewrite app_length; lia). cbn [obind].
    rewrite upd_app by (rewrite app_length; lia). cbn [obind].
    replace ((pre ++ flat_map p1 done) ++ fadd E x (fst cur) :: y :: flat_map p1 todo ++ post)
      with ((pre ++ flat_map p1 done ++ [fadd E x (fst cur)]) ++ y :: flat_map p1 todo ++ post)
      by (rewrite <- !app_assoc; reflexivity).
    rewrite idx_app by (rewrite !app_length; cbn; lia). cbn [obind].
    rewrite upd_app by (rewrite !app_length; cbn; lia). cbn [obind].
    rewrite (IH pre (done ++ [shiftp cur (x, y)]) post); try (rewrite ?app_length; cbn; lia).
    + rewrite <- app_assoc. reflexivity.
    + rewrite flat_map_app. cbn. rewrite <- !app_assoc. reflexivity.
Qed.

Fixpoint absl {A} (shift : point -> A -> A) (endp : A -> point) (cur : point) (l : list A) : list A :=
  match l with
  | [] => []
  | a :: r => let a' := shift cur a in a' :: absl shift endp (endp a') r
  end.
Lemma absl_length {A} (shift : point -> A -> A) endp l : forall cur, length (absl shift endp cur l) = length l.
Proof. induction l; intros; cbn; auto. Qed.

(** an argument set is a non-empty list of k points *)
Record shape {A} (pts : A -> list point) (k : nat) (shift : point -> A -> A) (endp : A -> point) : Prop := {
  sh_k : 0 < k;
  sh_len : forall a, length (pts a) = k;
  sh_shift : forall cur a, pts (shift cur a) = map (shiftp cur) (pts a);
  sh_end : forall a, exists l, pts a = l ++ [endp a]
}.

Lemma abs_outer_eq {A} pts k shift endp (Hs : @shape A pts k shift endp) l : forall cur pre fuel,
  length l <= fuel ->
  abs_outer fuel (length pre) (2 * k) (fst cur) (snd cur) (pre ++ flat_map p1 (flat_map pts l))
  = Ret (pre ++ flat_map p1 (flat_map pts (absl shift endp cur l))).
Proof.
  destruct Hs as [Hk Hl Hsh He].
  induction l as [|a l IH]; intros cur pre fuel Hf; cbn [length flat_map absl] in *.
  - cbn [flat_map]. rewrite app_nil_r.
    destruct fuel; cbn [abs_outer]; rewrite Nat.ltb_irrefl; reflexivity.
  - destruct fuel as [|fuel]; [lia|]. cbn [abs_outer].
    rewrite app_length, flat_map_app, app_length.
    assert (HL : length (flat_map p1 (pts a)) = 2 * k) by (rewrite (flat_len p1 2), Hl; [lia|reflexivity]).
    destruct (Nat.ltb_spec (length pre) (length pre + (length (flat_map p1 (pts a)) + length (flat_map p1 (flat_map pts l))))); [|lia].
    rewrite (abs_inner_eq cur (pts a) pre [] (flat_map p1 (flat_map pts l))); cbn [length flat_map app]; rewrite ?Hl; auto; try lia.
    cbn [obind]. rewrite <- Hsh.
    destruct (He (shift cur a)) as [q Hq].
    assert (HQ : length q = k - 1).
    { pose proof (Hl (shift cur a)) as Hx. rewrite Hq, app_length in Hx. cbn in Hx. lia. }
    assert (HQ2 : length (flat_map p1 q) = 2 * (k - 1)) by (rewrite (flat_len p1 2), HQ; [lia|reflexivity]).
    assert (HP1 : pre ++ flat_map p1 (pts (shift cur a)) ++ flat_map p1 (flat_map pts l)
       = (pre ++ flat_map p1 q) ++ fst (endp (shift cur a)) :: snd (endp (shift cur a)) :: flat_map p1 (flat_map pts l))
      by (rewrite Hq, flat_map_app; cbn; rewrite <- !app_assoc; reflexivity).
    assert (HP2 : pre ++ flat_map p1 (pts (shift cur a)) ++ flat_map p1 (flat_map pts l)
       = (pre ++ flat_map p1 q ++ [fst (endp (shift cur a))]) ++ snd (endp (shift cur a)) :: flat_map p1 (flat_map pts l))
      by (rewrite Hq, flat_map_app; cbn; rewrite <- !app_assoc; reflexivity).
    rewrite HP1 at 1. rewrite idx_app by (rewrite app_length; lia). cbn [obind].
    rewrite HP2 at 1. rewrite idx_app by (rewrite !app_length; cbn; lia). cbn [obind].
    specialize (IH (endp (shift cur a)) (pre ++ flat_map p1 (pts (shift cur a))) fuel ltac:(lia)).
    replace (length (pre ++ flat_map p1 (pts (shift cur a)))) with (length pre + 2 * k) in IH
      by (rewrite app_length, (flat_len p1 2), Hl; [lia|reflexivity]).
    rewrite <- !app_assoc in IH. rewrite flat_map_app. exact IH.
Qed.

Lemma requireSets_eq {A} pts k shift endp (Hs : @shape A pts k shift endp) (rel : bool) l (c : pcur) :
  l <> [] -> pc_points c = flat_map p1 (flat_map pts l) ->
  requireSets (2 * k) rel c
  = (set_points (flat_map p1 (flat_map pts
      (if rel then absl shift endp (pc_placeX c, pc_placeY c) l else l))) c, Ret tt).
Proof.
  intros Hne Hp. unfold requireSets, hasSetsOrMore, points, gets, bind.
  assert (HL : length (flat_map p1 (flat_map pts l)) = length l * (2 * k)).
  { rewrite (flat_len p1 2) by reflexivity. 
    assert (length (flat_map pts l) = length l * k) as ->; [|lia].
    clear -Hs. induction l; cbn; [reflexivity|]. rewrite app_length, IHl, (sh_len _ _ _ _ Hs). lia. }
  pose proof (sh_k _ _ _ _ Hs) as Hk.
  rewrite Hp, HL. destruct l as [|a l]; [congruence|].
  destruct (Nat.leb_spec (2 * k) (length (a :: l) * (2 * k))); [|cbn in *; lia].
  rewrite Nat.mod_mul by lia. cbn [andb Nat.eqb negb].
  destruct rel.
  - unfold pointsToAbs.
    pose proof (abs_outer_eq pts k shift endp Hs (a :: l) (pc_placeX c, pc_placeY c) [] (length (pc_points c))) as K.
    cbn [fst snd app] in K. change (length (@nil F)) with 0 in K.
    rewrite <- Hp in K at 1. rewrite K; [reflexivity|].
    rewrite Hp, HL. nia.
  - unfold ret. rewrite <- Hp. destruct c; reflexivity.
Qed.

(** the wrong number of arguments *)
Lemma requireSets_bad sz rel (c : pcur) :
  (length (pc_points c) < sz \/ Nat.modulo (length (pc_points c)) sz <> 0) ->
  requireSets sz rel c = (c, Err ErrParamMismatch).
Proof.
  intros H. unfold requireSets, hasSetsOrMore, points, gets, bind.
  replace ((sz <=? length (pc_points c)) && (Nat.modulo (length (pc_points c)) sz =? 0)) with false; [reflexivity|].
  symmetry. apply andb_false_iff. destruct H as [H|H]; [left|right].
  - apply Nat.leb_gt. assumption.
  - apply Nat.eqb_neq. assumption.
Qed.

(** ** the shapes *)
Definition pts1 (p : point) : list point := [p].
Definition pts2 (q : point * point) : list point := [fst q; snd q].
Definition pts3 (q : point * point * point) : list point := [fst (fst q); snd (fst q); snd q].
Definition shift2 (cur : point) (q : point * point) := (shiftp cur (fst q), shiftp cur (snd q)).
Definition shift3 (cur : point) (q : point * point * point) :=
  ((shiftp cur (fst (fst q)), shiftp cur (snd (fst q))), shiftp cur (snd q)).
Lemma shape1 : shape pts1 1 shiftp (fun p => p).
Proof. split; try reflexivity; try lia. intros; exists []; reflexivity. Qed.
Lemma shape2 : shape pts2 2 shift2 snd.
Proof. split; try reflexivity; try lia. intros [a b]; exists [a]; reflexivity. Qed.
Lemma shape3 : shape pts3 3 shift3 snd.
Proof. split; try reflexivity; try lia. intros [[a b] d]; exists [a; b]; reflexivity. Qed.
Lemma flat1 l : flat_map p1 (flat_map pts1 l) = flat_map p1 l.
Proof. induction l; cbn; [reflexivity|]. rewrite IHl. reflexivity. Qed.
Lemma flat2 l : flat_map p1 (flat_map pts2 l) = flat_map p2 l.
Proof. induction l as [|[a b] l IH]; cbn; [reflexivity|]. rewrite IH. reflexivity. Qed.
Lemma flat3 l : flat_map p1 (flat_map pts3 l) = flat_map p3 l.
Proof. induction l as [|[[a b] d] l IH]; cbn; [reflexivity|]. rewrite IH. reflexivity. Qed.

Definition abs1 (rel : bool) (cur : point) (l : list point) : list point :=
  if rel then absl shiftp (fun p => p) cur l else l.
Definition abs2 (rel : bool) (cur : point) (l : list (point * point)) :=
  if rel then absl shift2 snd cur l else l.
Definition abs3 (rel : bool) (cur : point) (l : list (point * point * point)) :=
  if rel then absl shift3 snd cur l else l.
Definition place (c : pcur) : point := (pc_placeX c, pc_placeY c).

Lemma require1 rel l (c : pcur) : l <> [] -> pc_points c = flat_map p1 l ->
  requireSets 2 rel c = (set_points (flat_map p1 (abs1 rel (place c) l)) c, Ret tt).
Proof.
  intros H K. rewrite <- (flat1 l) in K. pose proof (requireSets_eq pts1 1 _ _ shape1 rel l c H K) as R.
  rewrite flat1 in R. exact R.
Qed.
Lemma require2 rel l (c : pcur) : l <> [] -> pc_points c = flat_map p2 l ->
  requireSets 4 rel c = (set_points (flat_map p2 (abs2 rel (place c) l)) c, Ret tt).
Proof.
  intros H K. rewrite <- (flat2 l) in K. pose proof (requireSets_eq pts2 2 _ _ shape2 rel l c H K) as R.
  rewrite flat2 in R. exact R.
Qed.
Lemma require3 rel l (c : pcur) : l <> [] -> pc_points c = flat_map p3 l ->
  requireSets 6 rel c = (set_points (flat_map p3 (abs3 rel (place c) l)) c, Ret tt).
Proof.
  intros H K. rewrite <- (flat3 l) in K. pose proof (requireSets_eq pts3 3 _ _ shape3 rel l c H K) as R.
  rewrite flat3 in R. exact R.
Qed.
Lemma abs1_length rel cur l : length (abs1 rel cur l) = length l.
Proof. destruct rel; [apply absl_length|reflexivity]. Qed.
Lemma abs2_length rel cur l : length (abs2 rel cur l) = length l.
Proof. destruct rel; [apply absl_length|reflexivity]. Qed.
Lemma abs3_length rel cur l : length (abs3 rel cur l) = length l.
Proof. destruct rel; [apply absl_length|reflexivity]. Qed.

(** reading points *)
Lemma pnt_app (l r : list F) x n (c : pcur) : pc_points c = l ++ x :: r -> n = length l ->
  pnt n c = (c, Ret x).
Proof. intros H K. unfold pnt. rewrite H, idx_app by assumption. reflexivity. Qed.
Lemma fxpt_app (l r : list F) x y n (c : pcur) : pc_points c = l ++ x :: y :: r -> n = length l ->
  fxpt n c = (c, Ret (at_cur c x y)).
Proof.
  intros H K. unfold fxpt, bind. rewrite (pnt_app l (y :: r) x) by assumption.
  rewrite (pnt_app (l ++ [x]) r y); [reflexivity|rewrite <- app_assoc; exact H|rewrite app_length; cbn; lia].
Qed.
Lemma moveTo_app (l r : list F) x y n (c : pcur) : pc_points c = l ++ x :: y :: r -> n = length l ->
  moveTo n c = (set_place x y c, Ret tt).
Proof.
  intros H K. unfold moveTo, bind. rewrite (pnt_app l (y :: r) x) by assumption.
  rewrite (pnt_app (l ++ [x]) r y); [reflexivity|rewrite <- app_assoc; exact H|rewrite app_length; cbn; lia].
Qed.

(** ** the segments: effect on the cursor *)
Definition offc (c : pcur) : point := (pc_curX c, pc_curY c).
Definition start (c : pcur) : point := (pc_startX c, pc_startY c).
Definition cntl (c : pcur) : point := (pc_cntlX c, pc_cntlY c).
Notation dot := (dot E).
Definition addOps (o : list op) (c : pcur) : pcur := set_path (pc_path c ++ o) c.
Definition setPlace (p : point) (c : pcur) : pcur := set_place (fst p) (snd p) c.
Definition setCntl (p : point) (c : pcur) : pcur := set_cntl (fst p) (snd p) c.
Definition setStart (p : point) (c : pcur) : pcur := set_start (fst p) (snd p) c.

Lemma at_cur_dot (c : pcur) x y : at_cur c x y = dot (offc c) (x, y).
Proof. reflexivity. Qed.

Lemma fold_addOps {A} (f : A -> list op) l : forall c : pcur,
  fold_left (fun c a => addOps (f a) c) l c = addOps (flat_map f l) c.
Proof.
  induction l as [|a l IH]; intros c; cbn [fold_left flat_map].
  - unfold addOps. rewrite app_nil_r. destruct c; reflexivity.
  - rewrite IH. unfold addOps; cbn. rewrite app_assoc. reflexivity.
Qed.

Lemma ops_loop {A} (enc : A -> list F) sz (body : nat -> P unit) (f : A -> list op) off
  (Hsz : 0 < sz) (Henc : forall a, length (enc a) = sz)
  (Hbody : forall pre a post c, offc c = off -> pc_points c = pre ++ enc a ++ post ->
     body (length pre) c = (addOps (f a) c, Ret tt)) :
  forall l pre c fuel bound, offc c = off -> pc_points c = pre ++ flat_map enc l ->
  bound = length pre + length (flat_map enc l) - (sz - 1) -> length l <= fuel ->
  loop fuel (length pre) sz bound body c = (addOps (flat_map f l) c, Ret tt).
Proof.
  intros l pre c fuel bound HJ Hp Hb Hf.
  rewrite (loop_sets enc sz body (fun c a => addOps (f a) c) (fun c => offc c = off)) with (l := l); auto.
  - f_equal. apply fold_addOps.
  - intros q a post d Hd Hq. split; [eauto|split; [reflexivity|exact Hd]].
Qed.

Definition lineOps off (p : point) : list op := [OpLineTo (dot off p)].
Definition quadOps off (q : point * point) : list op := [OpQuadTo (dot off (fst q)) (dot off (snd q))].
Definition cubeOps off (q : point * point * point) : list op :=
  [OpCubicTo (dot off (fst (fst q))) (dot off (snd (fst q))) (dot off (snd q))].

Lemma snoc_points {A} (enc : A -> list F) l a : flat_map enc (l ++ [a]) = flat_map enc l ++ enc a.
Proof. rewrite flat_map_app. cbn. rewrite app_nil_r. reflexivity. Qed.
Lemma p1_len l : length (flat_map p1 l) = length l * 2.
Proof. apply flat_len; reflexivity. Qed.
Lemma p2_len l : length (flat_map p2 l) = length l * 4.
Proof. apply flat_len; reflexivity. Qed.
Lemma p3_len l : length (flat_map p3 l) = length l * 6.
Proof. apply flat_len; reflexivity. Qed.

(** M/m: the absolute points [a :: l] *)
Lemma segM_eq rel ps a l n (c : pcur) : ps <> [] -> pc_points c = flat_map p1 ps -> n = length (pc_points c) ->
  abs1 rel (place c) ps = a :: l ->
  segM rel n c = (setPlace (last (a :: l) a) (addOps (OpMoveTo (dot (offc c) a) :: flat_map (lineOps (offc c)) l)
                   (set_inPath true (setStart a (set_points (flat_map p1 (a :: l)) c)))), Ret tt).
Proof.
  intros Hne Hp -> Ha. unfold segM, bind. rewrite (require1 rel ps) by assumption. rewrite Ha.
  assert (HL : length (pc_points c) = length (a :: l) * 2).
  { rewrite Hp, p1_len, <- Ha, abs1_length. reflexivity. }
  rewrite (pnt_app [] (snd a :: flat_map p1 l) (fst a)) by reflexivity.
  rewrite (pnt_app [fst a] (flat_map p1 l) (snd a)) by reflexivity.
  unfold modify, fxp, gets, onPath, modify. 
  match goal with |- context [loop _ 2 2 _ _ ?d] => set (c1 := d) end.
  rewrite (ops_loop p1 2 _ (lineOps (offc c)) (offc c)) with (l := l) (pre := p1 a); auto.
  - unfold addOps. destruct (snoc_inv (a :: l)) as (l' & z & Hz); [congruence|]. rewrite Hz, last_snoc.
    rewrite (moveTo_app (flat_map p1 l') [] (fst z) (snd z)).
    + subst c1. rewrite <- Hz. unfold addOps, setPlace, setStart, pStart; cbn. rewrite <- app_assoc. reflexivity.
    + subst c1. cbn [set_path pc_points set_inPath set_start set_points].
      rewrite Hz, snoc_points. reflexivity.
    + rewrite HL, Hz, app_length, p1_len. cbn. lia.
  - intros pre [x y] post d Hd Hq. unfold bind. rewrite (fxpt_app pre post x y) by auto.
    rewrite at_cur_dot, Hd. reflexivity.
  - rewrite HL, p1_len. cbn. lia.
  - rewrite HL. cbn. lia.
Qed.

Lemma segL_eq rel ps A n z (c : pcur) : ps <> [] -> pc_points c = flat_map p1 ps -> n = length (pc_points c) ->
  A = abs1 rel (place c) ps ->
  segL rel n c = (setPlace (last A z) (addOps (flat_map (lineOps (offc c)) A)
                   (set_points (flat_map p1 A) c)), Ret tt).
Proof.
  intros Hne Hp -> ->. unfold segL, bind. rewrite (require1 rel ps) by assumption.
  assert (HL : length (pc_points c) = length (abs1 rel (place c) ps) * 2).
  { rewrite Hp, p1_len, abs1_length. reflexivity. }
  assert (HN : abs1 rel (place c) ps <> []).
  { intros H. pose proof (abs1_length rel (place c) ps) as K. rewrite H in K. destruct ps; [congruence|discriminate]. }
  set (A := abs1 rel (place c) ps) in *. clearbody A.
  rewrite (ops_loop p1 2 _ (lineOps (offc c)) (offc c)) with (l := A) (pre := []); auto.
  - destruct (snoc_inv A HN) as (l' & y & ->). rewrite last_snoc.
    rewrite (moveTo_app (flat_map p1 l') [] (fst y) (snd y)).
    + reflexivity.
    + cbn. rewrite snoc_points. reflexivity.
    + rewrite HL, app_length, p1_len. cbn. lia.
  - intros pre [x y] post d Hd Hq. unfold bind. rewrite (fxpt_app pre post x y) by auto.
    rewrite at_cur_dot, Hd. reflexivity.
  - rewrite HL, p1_len. cbn. lia.
  - rewrite HL. cbn. lia.
Qed.

Lemma segQ_eq rel ps A n z (c : pcur) : ps <> [] -> pc_points c = flat_map p2 ps -> n = length (pc_points c) ->
  A = abs2 rel (place c) ps ->
  segQ rel n c = (setPlace (snd (last A z)) (setCntl (fst (last A z)) (addOps (flat_map (quadOps (offc c)) A)
                   (set_points (flat_map p2 A) c))), Ret tt).
Proof.
  intros Hne Hp -> ->. unfold segQ, bind. rewrite (require2 rel ps) by assumption.
  assert (HL : length (pc_points c) = length (abs2 rel (place c) ps) * 4).
  { rewrite Hp, p2_len, abs2_length. reflexivity. }
  assert (HN : abs2 rel (place c) ps <> []).
  { intros H. pose proof (abs2_length rel (place c) ps) as K. rewrite H in K. destruct ps; [congruence|discriminate]. }
  set (A := abs2 rel (place c) ps) in *. clearbody A.
  rewrite (ops_loop p2 4 _ (quadOps (offc c)) (offc c)) with (l := A) (pre := []); auto; try lia.
  - destruct (snoc_inv A HN) as (l' & [[x y] [u v]] & ->). rewrite last_snoc. cbn [fst snd].
    assert (HP : flat_map p2 (l' ++ [((x, y), (u, v))]) = flat_map p2 l' ++ [x; y; u; v])
      by (rewrite snoc_points; reflexivity).
    assert (HLl : length (pc_points c) = length (flat_map p2 l') + 4)
      by (rewrite HL, app_length, p2_len; cbn; lia).
    rewrite (pnt_app (flat_map p2 l') [y; u; v] x); [|exact HP|lia].
    rewrite (pnt_app (flat_map p2 l' ++ [x]) [u; v] y);
      [|etransitivity; [exact HP|rewrite <- app_assoc; reflexivity]|rewrite app_length; cbn; lia].
    unfold modify.
    rewrite (moveTo_app (flat_map p2 l' ++ [x; y]) [] u v);
      [|etransitivity; [exact HP|rewrite <- app_assoc; reflexivity]|rewrite app_length; cbn; lia].
    reflexivity.
  - intros pre [[x y] [u v]] post d Hd Hq. unfold bind.
    rewrite (fxpt_app pre (u :: v :: post) x y) by auto.
    rewrite (fxpt_app (pre ++ [x; y]) post u v); [|rewrite <- app_assoc; exact Hq|rewrite app_length; cbn; lia].
    rewrite !at_cur_dot, Hd. reflexivity.
  - rewrite HL, p2_len. cbn. lia.
Qed.

Lemma segC_eq rel ps A n z (c : pcur) : ps <> [] -> pc_points c = flat_map p3 ps -> n = length (pc_points c) ->
  A = abs3 rel (place c) ps ->
  segC rel n c = (setPlace (snd (last A z)) (setCntl (snd (fst (last A z))) (addOps (flat_map (cubeOps (offc c)) A)
                   (set_points (flat_map p3 A) c))), Ret tt).
Proof.
  intros Hne Hp -> ->. unfold segC, bind. rewrite (require3 rel ps) by assumption.
  assert (HL : length (pc_points c) = length (abs3 rel (place c) ps) * 6).
  { rewrite Hp, p3_len, abs3_length. reflexivity. }
  assert (HN : abs3 rel (place c) ps <> []).
  { intros H. pose proof (abs3_length rel (place c) ps) as K. rewrite H in K. destruct ps; [congruence|discriminate]. }
  set (A := abs3 rel (place c) ps) in *. clearbody A.
  rewrite (ops_loop p3 6 _ (cubeOps (offc c)) (offc c)) with (l := A) (pre := []); auto; try lia.
  - destruct (snoc_inv A HN) as (l' & [[[a b] [x y]] [u v]] & ->). rewrite last_snoc. cbn [fst snd].
    assert (HP : flat_map p3 (l' ++ [((a, b), (x, y), (u, v))]) = flat_map p3 l' ++ [a; b; x; y; u; v])
      by (rewrite snoc_points; reflexivity).
    assert (HLl : length (pc_points c) = length (flat_map p3 l') + 6)
      by (rewrite HL, app_length, p3_len; cbn; lia).
    rewrite (pnt_app (flat_map p3 l' ++ [a; b]) [y; u; v] x);
      [|etransitivity; [exact HP|rewrite <- app_assoc; reflexivity]|rewrite app_length; cbn; lia].
    rewrite (pnt_app (flat_map p3 l' ++ [a; b; x]) [u; v] y);
      [|etransitivity; [exact HP|rewrite <- app_assoc; reflexivity]|rewrite app_length; cbn; lia].
    unfold modify.
    rewrite (moveTo_app (flat_map p3 l' ++ [a; b; x; y]) [] u v);
      [|etransitivity; [exact HP|rewrite <- app_assoc; reflexivity]|rewrite app_length; cbn; lia].
    reflexivity.
  - intros pre [[[a b] [x y]] [u v]] post d Hd Hq. unfold bind.
    rewrite (fxpt_app pre (x :: y :: u :: v :: post) a b) by auto.
    rewrite (fxpt_app (pre ++ [a; b]) (u :: v :: post) x y); [|rewrite <- app_assoc; exact Hq|rewrite app_length; cbn; lia].
    rewrite (fxpt_app (pre ++ [a; b; x; y]) post u v); [|rewrite <- app_assoc; exact Hq|rewrite app_length; cbn; lia].
    rewrite !at_cur_dot, Hd. reflexivity.
  - rewrite HL, p3_len. cbn. lia.
Qed.

Definition quadKey (k : ascii) : bool := is_key k ["q"; "Q"; "T"; "t"]%char.
Definition cubeKey (k : ascii) : bool := is_key k ["c"; "C"; "s"; "S"]%char.
Definition ctlQ (c : pcur) : point :=
  if quadKey (pc_lastKey c) then mirror E (place c) (cntl c) else place c.
Definition ctlC (c : pcur) : point :=
  if cubeKey (pc_lastKey c) then mirror E (place c) (cntl c) else place c.
Definition stepT (k : ascii) (c : pcur) (p : point) : pcur :=
  setPlace p (set_lastKey k (addOps [OpQuadTo (dot (offc c) (ctlQ c)) (dot (offc c) p)] (setCntl (ctlQ c) c))).
Definition stepS (k : ascii) (c : pcur) (q : point * point) : pcur :=
  setPlace (snd q) (setCntl (fst q) (set_lastKey k
    (addOps [OpCubicTo (dot (offc c) (ctlC c)) (dot (offc c) (fst q)) (dot (offc c) (snd q))]
      (setCntl (ctlC c) c)))).

Lemma reflectQ_eq (c : pcur) : reflectControlQuad c = (setCntl (ctlQ c) c, Ret tt).
Proof.
  unfold reflectControlQuad, modify, ctlQ. fold (quadKey (pc_lastKey c)).
  destruct (quadKey (pc_lastKey c)); reflexivity.
Qed.
Lemma reflectC_eq (c : pcur) : reflectControlCube c = (setCntl (ctlC c) c, Ret tt).
Proof.
  unfold reflectControlCube, modify, ctlC. fold (cubeKey (pc_lastKey c)).
  destruct (cubeKey (pc_lastKey c)); reflexivity.
Qed.

Lemma segT_eq k rel ps A n (c : pcur) : ps <> [] -> pc_points c = flat_map p1 ps -> n = length (pc_points c) ->
  A = abs1 rel (place c) ps ->
  segT k rel n c = (fold_left (stepT k) A (set_points (flat_map p1 A) c), Ret tt).
Proof.
  intros Hne Hp -> ->. unfold segT. unfold bind at 1. rewrite (require1 rel ps) by assumption.
  assert (HL : length (pc_points c) = length (abs1 rel (place c) ps) * 2).
  { rewrite Hp, p1_len, abs1_length. reflexivity. }
  set (A := abs1 rel (place c) ps) in *. clearbody A.
  rewrite (loop_sets p1 2 _ (stepT k) (fun _ => True)) with (l := A) (pre := []); auto.
  - intros pre [x y] post d _ Hq. split; [|split; [reflexivity|exact I]]. unfold bind.
    rewrite reflectQ_eq. unfold gets.
    rewrite (fxpt_app pre post x y) by auto. unfold onPath, modify.
    rewrite (moveTo_app pre post x y) by auto. reflexivity.
  - rewrite HL, p1_len. cbn. lia.
  - rewrite HL. lia.
Qed.

Lemma segS_eq k rel ps A n (c : pcur) : ps <> [] -> pc_points c = flat_map p2 ps -> n = length (pc_points c) ->
  A = abs2 rel (place c) ps ->
  segS k rel n c = (fold_left (stepS k) A (set_points (flat_map p2 A) c), Ret tt).
Proof.
  intros Hne Hp -> ->. unfold segS. unfold bind at 1. rewrite (require2 rel ps) by assumption.
  assert (HL : length (pc_points c) = length (abs2 rel (place c) ps) * 4).
  { rewrite Hp, p2_len, abs2_length. reflexivity. }
  set (A := abs2 rel (place c) ps) in *. clearbody A.
  rewrite (loop_sets p2 4 _ (stepS k) (fun _ => True)) with (l := A) (pre := []); auto; try lia.
  - intros pre [[x y] [u v]] post d _ Hq. split; [|split; [reflexivity|exact I]]. unfold bind.
    rewrite reflectC_eq. unfold gets.
    rewrite (fxpt_app pre (u :: v :: post) x y) by auto.
    rewrite (fxpt_app (pre ++ [x; y]) post u v); [|rewrite <- app_assoc; exact Hq|rewrite app_length; cbn; lia].
    unfold onPath, modify.
    rewrite (pnt_app pre (y :: u :: v :: post) x) by auto.
    rewrite (pnt_app (pre ++ [x]) (u :: v :: post) y); [|cbn; rewrite <- app_assoc; exact Hq|rewrite app_length; cbn; lia].
    rewrite (moveTo_app (pre ++ [x; y]) post u v); [|cbn; rewrite <- app_assoc; exact Hq|rewrite app_length; cbn; lia].
    reflexivity.
  - rewrite HL, p2_len. cbn. lia.
Qed.

(** V and H *)
Lemma requireOne (c : pcur) : pc_points c <> [] -> requireSets 1 false c = (c, Ret tt).
Proof.
  intros H. unfold requireSets, hasSetsOrMore, points, gets, bind.
  rewrite Nat.mod_1_r. destruct (pc_points c); [congruence|]. reflexivity.
Qed.
Definition absv (rel : bool) (cur : F) (l : list F) : list F := if rel then vals_abs cur l else l.
Lemma vals_abs_length l : forall cur, length (vals_abs (E := E) cur l) = length l.
Proof. induction l; intros; cbn; auto. Qed.
Lemma absv_length rel cur l : length (absv rel cur l) = length l.
Proof. destruct rel; [apply vals_abs_length|reflexivity]. Qed.

Lemma segV_eq rel n z (c : pcur) : pc_points c <> [] -> n = length (pc_points c) ->
  segV rel n c = let A := absv rel (pc_placeY c) (pc_points c) in
    (setPlace (pc_placeX c, last A z) (addOps (flat_map (fun y => lineOps (offc c) (pc_placeX c, y)) A)
      (set_points A c)), Ret tt).
Proof.
  intros Hne ->. cbn zeta. unfold segV.
  set (A := absv rel (pc_placeY c) (pc_points c)).
  assert (HA : A <> []).
  { intros H. pose proof (absv_length rel (pc_placeY c) (pc_points c)) as K. fold A in K. rewrite H in K.
    destruct (pc_points c); [congruence|discriminate]. }
  assert (HL : length (pc_points c) = length A) by (symmetry; apply absv_length).
  unfold bind at 1.
  replace ((if rel then y <- gets pc_placeY;; valsToAbs y else ret tt) c) with (set_points A c, @Ret unit tt).
  2:{ subst A. destruct rel; [reflexivity|]. destruct c; reflexivity. }
  unfold bind at 1. rewrite requireOne by exact HA.
  unfold points, bind, gets. cbn [pc_points set_points].
  assert (HM : forall l (d : pcur), offc d = offc c -> pc_placeX d = pc_placeX c ->
     mapM (fun p d => match (d, Ret (pc_placeX d)) with
        | (s', Ret a) => match fxp a p s' with | (s'0, Ret a0) => onPath (pLine a0) s'0
          | (s'0, Err e) => (s'0, Err e) | (s'0, Panic) => (s'0, Panic) | (s'0, NoFuel) => (s'0, NoFuel) end
        | (s', Err e) => (s', Err e) | (s', Panic) => (s', Panic) | (s', NoFuel) => (s', NoFuel) end) l d
     = (addOps (flat_map (fun y => lineOps (offc c) (pc_placeX c, y)) l) d, Ret tt)).
  { induction l as [|a l IH]; intros d HO HX.
    - cbn. unfold ret, addOps. rewrite app_nil_r. destruct d; reflexivity.
    - cbn [mapM]. unfold bind, fxp, gets, onPath, modify. rewrite IH by assumption.
      unfold addOps, pLine; cbn. rewrite <- app_assoc, at_cur_dot, HO, HX. reflexivity. }
  rewrite HM by reflexivity.
  destruct (snoc_inv A HA) as (l' & y & Hy). rewrite Hy in *. rewrite last_snoc.
  rewrite (pnt_app l' [] y); [reflexivity|reflexivity|rewrite HL, app_length; cbn; lia].
Qed.
Lemma segH_eq rel n z (c : pcur) : pc_points c <> [] -> n = length (pc_points c) ->
  segH rel n c = let A := absv rel (pc_placeX c) (pc_points c) in
    (setPlace (last A z, pc_placeY c) (addOps (flat_map (fun x => lineOps (offc c) (x, pc_placeY c)) A)
      (set_points A c)), Ret tt).
Proof.
  intros Hne ->. cbn zeta. unfold segH.
  set (A := absv rel (pc_placeX c) (pc_points c)).
  assert (HA : A <> []).
  { intros H. pose proof (absv_length rel (pc_placeX c) (pc_points c)) as K. fold A in K. rewrite H in K.
    destruct (pc_points c); [congruence|discriminate]. }
  assert (HL : length (pc_points c) = length A) by (symmetry; apply absv_length).
  unfold bind at 1.
  replace ((if rel then y <- gets pc_placeX;; valsToAbs y else ret tt) c) with (set_points A c, @Ret unit tt).
  2:{ subst A. destruct rel; [reflexivity|]. destruct c; reflexivity. }
  unfold bind at 1. rewrite requireOne by exact HA.
  unfold points, bind, gets. cbn [pc_points set_points].
  assert (HM : forall l (d : pcur), offc d = offc c -> pc_placeY d = pc_placeY c ->
     mapM (fun p d => match (d, Ret (pc_placeY d)) with
        | (s', Ret a) => match fxp p a s' with | (s'0, Ret a0) => onPath (pLine a0) s'0
          | (s'0, Err e) => (s'0, Err e) | (s'0, Panic) => (s'0, Panic) | (s'0, NoFuel) => (s'0, NoFuel) end
        | (s', Err e) => (s', Err e) | (s', Panic) => (s', Panic) | (s', NoFuel) => (s', NoFuel) end) l d
     = (addOps (flat_map (fun x => lineOps (offc c) (x, pc_placeY c)) l) d, Ret tt)).
  { induction l as [|a l IH]; intros d HO HX.
    - cbn. unfold ret, addOps. rewrite app_nil_r. destruct d; reflexivity.
    - cbn [mapM]. unfold bind, fxp, gets, onPath, modify. rewrite IH by assumption.
      unfold addOps, pLine; cbn. rewrite <- app_assoc, at_cur_dot, HO, HX. reflexivity. }
  rewrite HM by reflexivity.
  destruct (snoc_inv A HA) as (l' & y & Hy). rewrite Hy in *. rewrite last_snoc.
  rewrite (pnt_app l' [] y); [reflexivity|reflexivity|rewrite HL, app_length; cbn; lia].
Qed.
End Seg.

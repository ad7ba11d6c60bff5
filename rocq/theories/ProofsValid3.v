(** * ProofsValid3: which elements and documents are accepted (C74) *)
From Coq Require Import ZArith Lia.
From Verif Require Import ProofsGrad ProofsStr ProofsUnit ProofsColor ProofsStyle ProofsMistake ProofsMistake2 ProofsMistake3 ProofsTrans ProofsTok ProofsFuel ProofsData ProofsLocal.
From Verif Require Export ProofsValid.
Local Open Scope go_scope.
Local Open Scope nat_scope.

Section Accept.
Context {E : Env} (md : errorMode) (fuel kt : nat) (Hturns : turns (E := E) kt) (Hkt : kt <= fuel) (Hurl : lower_url E).
Notation F := (F E).
Notation cursor := (cursor E).
Notation C := (@C E).
Notation J := (J (E := E) md).
Notation acc := (acc (E := E) md).

(** ** Declarations *)
Lemma decl_iff s k v : all_chars is_ascii s = true ->
  (declaration s k v <-> exists n t q, split1 ":" s = n :: t :: q /\ k = trimSpace (toLower E n) /\ v = trimSpace t).
Proof.
  intros Ha. split.
  - intros (n & t & r & k' & -> & Hn & Ht & Hr & Pn & -> & Pt).
    assert (Q : exists q, split1 ":" (t ++ r) = t :: q).
    { destruct Hr as [->|(r' & ->)]; [rewrite sapp_nil_r; exists []; apply split1_none; exact Ht|exists (split1 ":" r'); apply split1_cons; exact Ht]. }
    destruct Q as (q & Q). exists n, t, q. split; [change (":" ++ t ++ r)%string with (String ":" (t ++ r)); rewrite split1_cons by exact Hn; rewrite Q; reflexivity|].
    split; [symmetry; apply key_reads, Pn|symmetry; apply padded_trim, Pt].
  - intros (n & t & q & Hs & -> & ->). destruct (lacks_split ":" s) as [Hl|(a & b & -> & Hl)]; [rewrite split1_none in Hs by exact Hl; discriminate|].
    rewrite split1_cons in Hs by exact Hl. injection Hs as <- Hs. apply chars_app in Ha as [A1 A2]. change (all_chars is_ascii b = true) in A2.
    assert (K : exists r, b = (t ++ r)%string /\ lacks ":" t = true /\ (r = ""%string \/ exists r', r = String ":" r')).
    { destruct (lacks_split ":" b) as [Hb|(x & y & -> & Hb)].
      - rewrite split1_none in Hs by exact Hb. injection Hs as <- _. exists ""%string. rewrite sapp_nil_r. auto.
      - rewrite split1_cons in Hs by exact Hb. injection Hs as <- _. exists (String ":" y). eauto. }
    destruct K as (r & -> & Ht & Hr). apply chars_app in A2 as [A2 _]. pose proof (padded_ex a A1) as Pa.
    exists a, t, r, (trimSpace a). split; [reflexivity|]. split; [exact Hl|]. split; [exact Ht|]. split; [exact Hr|]. split; [exact Pa|]. split; [apply key_reads, Pa|apply padded_ex, A2].
Qed.
Lemma acc_pair f st s : all_chars is_ascii s = true -> acc f f (forall k v, declaration s k v -> valid_decl E md k v) (stylePair (E := E) st s).
Proof.
  intros Ha. unfold stylePair. pose proof (fun k v => decl_iff s k v Ha) as D.
  destruct (split1 ":" s) as [|n [|t q]] eqn:Hs.
  - apply acc_ret. intros k v H. apply D in H as (n & t & q & H & _). discriminate.
  - apply acc_ret. intros k v H. apply D in H as (n' & t & q & H & _). discriminate.
  - apply (acc_iff md f f (valid_decl E md (trimSpace (toLower E n)) (trimSpace t))).
    + split.
      * intros H k v K. apply D in K as (n' & t' & q' & K & -> & ->). injection K as <- <- <-. exact H.
      * intros H. apply H. apply D. exists n, t, q. auto.
    + apply (acc_styleAttr md fuel kt Hkt Hurl). apply trim_ascii. pose proof (split_ascii ":" s Ha) as K. rewrite Hs in K. inversion K as [|? ? _ K']; subst. inversion K'; assumption.
Qed.
Definition decls_ok (attrs : list attr) : Prop := forall a k v, List.In a attrs -> declares a k v -> valid_decl E md k v.
Definition asciis (attrs : list attr) : Prop := Forall (fun a => all_chars is_ascii (a_name a) = true /\ all_chars is_ascii (a_val a) = true) attrs.
Lemma acc_pushed f attrs : asciis attrs -> acc f f (decls_ok attrs) (pushed (E := E) attrs).
Proof.
  intros Ha. unfold pushed. apply acc_r; [apply acc_top|]. intros top.
  assert (K : forall s, List.In s (stylePairs (E := E) attrs) <-> exists a, List.In a attrs /\ if String.eqb (low_case (a_name a)) "style" then piece_of ";" (a_val a) s else s = (a_name a ++ ":" ++ a_val a)%string).
  { intros s. unfold stylePairs. rewrite in_flat_map. split; intros (a & Hi & Hs); exists a; (split; [exact Hi|]);
      (assert (A : all_chars is_ascii (a_name a) = true) by (unfold asciis in Ha; rewrite Forall_forall in Ha; apply (Ha a Hi))); rewrite (toLower_low E _ A) in *;
      destruct (String.eqb (low_case (a_name a)) "style"); try (apply split_in; exact Hs).
    - destruct Hs as [<-|[]]. reflexivity.
    - left. symmetry. exact Hs. }
  apply (acc_iff md f f (Forall (fun s => forall k v, declaration s k v -> valid_decl E md k v) (stylePairs (E := E) attrs))).
  - rewrite Forall_forall. unfold decls_ok, declares. split.
    + intros H a k v Hi Hd. destruct (String.eqb (low_case (a_name a)) "style") eqn:Hst.
      * destruct Hd as (s & Hp & Hd). apply (H s); [|exact Hd]. apply K. exists a. rewrite Hst. auto.
      * apply (H (a_name a ++ ":" ++ a_val a)%string); [|exact Hd]. apply K. exists a. rewrite Hst. auto.
    + intros H s Hs k v Hd. apply K in Hs as (a & Hi & Hs). apply (H a k v Hi). destruct (String.eqb (low_case (a_name a)) "style"); [eauto|subst s; exact Hd].
  - apply acc_fold. intros st s Hs. apply acc_pair. apply K in Hs as (a & Hi & Hs). unfold asciis in Ha. rewrite Forall_forall in Ha. destruct (Ha a Hi) as [A1 A2].
    destruct (String.eqb (low_case (a_name a)) "style").
    + destruct Hs as (x & y & Ex & _). rewrite Ex in A2. apply chars_app in A2 as [_ A2]. apply chars_app in A2. apply A2.
    + subst s. rewrite !all_chars_app, A1, A2. reflexivity.
Qed.

(** ** Attributes *)
Lemma va_len name a : ~ List.In name ["mask"; "svg"; "polyline"; "polygon"; "path"]%string -> (valid_attribute E md name a <-> (List.In (a_name a) (lengths_of name) -> valid_length E (a_val a))).
Proof.
  intros Hn. split; [intros K; exact (va_length _ _ _ _ K)|]. intros K. constructor; [exact K|intros ->|intros ->|intros [-> | ->]|intros ->]; exfalso; apply Hn; cbn; tauto.
Qed.
(** an attribute that is a length, or none of those *)
Ltac lens := repeat match goal with
  | |- ProofsValid.acc _ _ _ _ (if is ?a ?s then _ else _) => unfold is at 1; destruct (String.eqb_spec (a_name a) s) as [He|?];
      [apply (acc_iff _ _ _ (valid_length E (a_val a))); [split; [intros; assumption|intros K; apply K; rewrite He; cbn; tauto]|apply acc_l; [first [apply acc_unit; assumption|apply acc_float; assumption]|intros ?; apply acc_ret; exact I]]|]
  end; try (apply acc_ret; intros K; cbn in K; intuition congruence).
Ltac tup := repeat match goal with x : (_ * F)%type |- _ => destruct x end.
Ltac inval := match goal with Hi : List.In ?a ?attrs, Ha : asciis ?attrs |- _ => unfold asciis in Ha; rewrite Forall_forall in Ha; destruct (Ha a Hi) as [A1 A2] end.
Lemma acc_rect f attrs : asciis attrs -> acc f f (Forall (valid_attribute E md "rect") attrs) (rectF (E := E) fuel attrs).
Proof.
  intros Ha. unfold rectF. apply acc_l.
  - apply acc_fold. intros b a Hi. inval. tup. unfold rectAttr. apply (acc_iff _ _ _ _ _ _ (iff_sym (va_len "rect" a ltac:(cbn; intuition discriminate)))). lens.
  - intros a. tup. destruct (_ || _); [apply acc_ret; exact I|]. cbv zeta.
    apply acc_tw. 2:{ intros n l c _. split; [auto|intros _]. unfold bind, curXY, gets, lift. cbv iota beta.
      match goal with |- context [addRoundRect _ ?a ?b ?c ?d ?u ?v ?w ?p] => destruct (round_ret fuel kt Hturns Hkt a b c d u v w p) as (? & ->) end. eexists. reflexivity. }
    eapply (tw_bind _ _ _ anyv); [apply tw_gets; intros; exact I|]. intros [] [] _. eapply (tw_bind _ _ _ anyv); [apply tw_gets; intros; exact I|]. intros p q _.
    eapply (tw_bind _ _ _ anyv); [|intros; apply tw_onCPath]. apply tw_lift.
    match goal with |- same _ (addRoundRect _ ?a ?b ?c ?d ?u ?v ?w ?p) (addRoundRect _ ?a' ?b' ?c' ?d' ?u' ?v' ?w' ?p') =>
      destruct (round_ret fuel kt Hturns Hkt a b c d u v w p) as (? & ->), (round_ret fuel kt Hturns Hkt a' b' c' d' u' v' w' p') as (? & ->) end. exact I.
Qed.
Lemma acc_circle f name attrs : name = "circle"%string \/ name = "ellipse"%string -> asciis attrs -> acc f f (Forall (valid_attribute E md name) attrs) (circleF (E := E) attrs).
Proof.
  intros Hn Ha. unfold circleF. apply acc_l.
  - apply acc_fold. intros b a Hi. inval. tup. unfold circleAttr. apply (acc_iff _ _ _ _ _ _ (iff_sym (va_len name a ltac:(destruct Hn as [-> | ->]; cbn; intuition discriminate)))).
    destruct Hn as [-> | ->]; lens.
  - intros a. tup. apply acc_calm. apply calm_if; [apply calm_ret|]. intros n l c H. unfold bind, curXY, gets. apply calm_ellipse, H.
Qed.
Lemma acc_line f attrs : asciis attrs -> acc f f (Forall (valid_attribute E md "line") attrs) (lineF (E := E) attrs).
Proof.
  intros Ha. unfold lineF. apply acc_l.
  - apply acc_fold. intros b a Hi. inval. tup. unfold lineAttr. apply (acc_iff _ _ _ _ _ _ (iff_sym (va_len "line" a ltac:(cbn; intuition discriminate)))). lens.
  - intros a. tup. assert (K : forall x y, acc f f True (liftP (fxp (E := E) x y))).
    { intros x y. apply acc_tw; [apply tw_fxp|]. intros n l c _. split; [auto|intros _; eexists; reflexivity]. }
    apply acc_r; [apply K|]. intros p. apply acc_r; [apply acc_calm, calm_onCPath|]. intros _. apply acc_r; [apply K|]. intros q. apply acc_calm, calm_onCPath.
Qed.
Lemma acc_mask f attrs : asciis attrs -> acc f f (Forall (valid_attribute E md "mask") attrs) (maskF (E := E) attrs).
Proof.
  intros Ha. unfold maskF. apply acc_l.
  - apply acc_fold. intros b a Hi. inval. tup. unfold maskAttr.
    apply (acc_iff _ _ _ ((List.In (a_name a) (lengths_of "mask") -> valid_length E (a_val a)) /\ (a_name a = "id"%string -> a_val a <> ""%string))).
    { split; [intros [K1 K2]; constructor; [exact K1|intros _; exact K2|discriminate|intros []; discriminate|discriminate]|]. intros K. split; [exact (va_length _ _ _ _ K)|exact (va_mask _ _ _ _ K eq_refl)]. }
    unfold is at 1. destruct (String.eqb_spec (a_name a) "id") as [He|Hid].
    { apply (acc_iff _ _ _ (a_val a <> ""%string)).
      - rewrite He. cbn. split; [intros K; split; [intuition discriminate|intros _; exact K]|]. intros [_ K]. apply K. reflexivity.
      - destruct (a_val a); cbn [String.length Nat.eqb]; [apply acc_raise; congruence|apply acc_ret; discriminate]. }
    apply (acc_iff _ _ _ (List.In (a_name a) (lengths_of "mask") -> valid_length E (a_val a))); [tauto|]. lens.
  - intros a. tup. apply acc_calm. intros n l c H. eexists. split; [reflexivity|]. destruct H. constructor; cbn; assumption.
Qed.
(** *** Lists of numbers *)
Lemma numbers_iff v P : all_chars is_ascii v = true ->
  ((exists xs, number_list E v xs /\ P (List.length xs) = true) <-> snd (numbers (E := E) v) = Ret tt /\ P (List.length (fst (numbers (E := E) v))) = true).
Proof.
  intros Ha. split.
  - intros (xs & H & HP). rewrite (numbers_of v xs Ha H). auto.
  - intros [H HP]. destruct (numbers_cases (E := E) v Ha) as [(xs & Hx & Hn)|(xs & e & Hn)]; rewrite Hn in *; [|discriminate]. exists xs. auto.
Qed.
Lemma acc_points f {A} v (k : option goerr -> list F -> C A) P :
  (forall err, (err = None <-> snd (numbers (E := E) v) = Ret tt) -> acc f f P (k err (fst (numbers (E := E) v)))) ->
  acc f f P (err <- attempt (cGetPoints v) ;; ps <- cPoints ;; k err ps).
Proof.
  intros H n l c Hc.
  assert (J1 : J f n l (c_set_pc (set_points (fst (numbers (E := E) v)) (c_pc c)) c)) by (apply J_same; [assumption|split; reflexivity]).
  destruct (numbers_total (E := E) v) as [Hn|[e Hn]].
  - specialize (H None (conj (fun _ => Hn) (fun _ => eq_refl)) n l _ J1). unfold attempt, cGetPoints, liftP, bind, cPoints, gets. rewrite !getPoints_numbers, Hn. exact H.
  - assert (Q : Some e = None <-> snd (numbers (E := E) v) = Ret tt) by (rewrite Hn; split; discriminate).
    specialize (H (Some e) Q n l _ J1). unfold attempt, cGetPoints, liftP, bind, cPoints, gets. rewrite !getPoints_numbers, Hn. exact H.
Qed.
Lemma acc_onSvg f u : (forall s, sv_grads (u s) = sv_grads s) -> (forall s, sv_titles (u s) = sv_titles s) -> (forall s, sv_descs (u s) = sv_descs s) -> acc f f True (onSvg (E := E) u).
Proof. intros H1 H2 H3. apply acc_tw; [apply tw_onSvg; assumption|]. intros n l c _. split; [auto|intros _; eexists; reflexivity]. Qed.
Lemma acc_svg f attrs : asciis attrs -> acc f f (Forall (valid_attribute E md "svg") attrs) (svgF (E := E) attrs).
Proof.
  intros Ha. unfold svgF. apply acc_r; [apply acc_onSvg; reflexivity|]. intros _. apply acc_l.
  - apply acc_fold. intros [w h] a Hi. inval. unfold svgAttr.
    apply (acc_iff _ _ _ ((List.In (a_name a) (lengths_of "svg") -> valid_length E (a_val a)) /\ (a_name a = "viewBox"%string -> exists xs, number_list E (a_val a) xs /\ (List.length xs =? 4) = true))).
    { split.
      - intros [K1 K2]. constructor; [exact K1|discriminate| |intros []; discriminate|discriminate]. intros _ Hv. destruct (K2 Hv) as (xs & X1 & X2). apply Nat.eqb_eq in X2. eauto.
      - intros K. split; [exact (va_length _ _ _ _ K)|]. intros Hv. destruct (va_viewBox _ _ _ _ K eq_refl Hv) as (xs & X1 & X2). exists xs. apply Nat.eqb_eq in X2. auto. }
    unfold is at 1. destruct (String.eqb_spec (a_name a) "viewBox") as [He|He].
    { apply (acc_iff _ _ _ (snd (numbers (E := E) (a_val a)) = Ret tt /\ (List.length (fst (numbers (E := E) (a_val a))) =? 4) = true)).
      - rewrite <- (numbers_iff (a_val a) (fun n => n =? 4) A2). rewrite He. cbn. split; [intros K; split; [intuition discriminate|intros _; exact K]|]. intros [_ K]. apply K. reflexivity.
      - apply acc_points. intros err Herr. destruct (fst (numbers (E := E) (a_val a))) as [|x0 [|x1 [|x2 [|x3 [|]]]]]; cbn [List.length Nat.eqb]; try (apply acc_raise; intros [_ K]; discriminate).
        apply acc_r; [apply acc_onSvg; reflexivity|]. intros _. destruct err; [apply acc_raise; intros [K _]; apply Herr in K; discriminate|apply acc_ret; split; [apply Herr|]; reflexivity]. }
    apply (acc_iff _ _ _ (List.In (a_name a) (lengths_of "svg") -> valid_length E (a_val a))); [tauto|].
    unfold is at 1. destruct (String.eqb_spec (a_name a) "width") as [Hw|Hw].
    { apply (acc_iff _ _ _ (valid_length E (a_val a))); [rewrite Hw; cbn; tauto|]. apply acc_r; [apply acc_onSvg; reflexivity|]. intros _. apply acc_l; [apply acc_float, A2|]. intros. apply acc_ret. exact I. }
    unfold is at 1. destruct (String.eqb_spec (a_name a) "height") as [Hh|Hh].
    { apply (acc_iff _ _ _ (valid_length E (a_val a))); [rewrite Hh; cbn; tauto|]. apply acc_r; [apply acc_onSvg; reflexivity|]. intros _. apply acc_l; [apply acc_float, A2|]. intros. apply acc_ret. exact I. }
    apply acc_ret. intros K. cbn in K. intuition congruence.
  - intros [w h]. apply acc_onSvg; intros s; cbv beta zeta; repeat match goal with |- context [if ?b then _ else _] => destruct b end; reflexivity.
Qed.
Lemma even_mod n : negb (Nat.modulo n 2 =? 0) = negb (Nat.even n).
Proof.
  f_equal. destruct (Nat.even n) eqn:He.
  - apply Nat.even_spec in He as [k ->]. apply Nat.eqb_eq. rewrite Nat.mul_comm. apply Nat.mod_mul. discriminate.
  - apply Nat.eqb_neq. intros H. apply Nat.mod_divides in H as [k ->]; [|discriminate]. rewrite Nat.even_mul in He. discriminate.
Qed.
Lemma acc_polyline f name attrs : name = "polyline"%string \/ name = "polygon"%string -> asciis attrs -> acc f f (Forall (valid_attribute E md name) attrs) (polylineF (E := E) attrs).
Proof.
  intros Hn Ha. unfold polylineF. apply acc_l; [|intros _; apply acc_calm; exact (calm_poly md fuel kt Hkt f)].
  apply acc_fold. intros [] a Hi. inval. unfold polyAttr.
  apply (acc_iff _ _ _ (a_name a = "points"%string -> exists xs, number_list E (a_val a) xs /\ Nat.even (List.length xs) = true)).
  { split.
    - intros K. constructor; [|intros ->; destruct Hn; discriminate|intros ->; destruct Hn; discriminate|intros _; exact K|intros ->; destruct Hn; discriminate]. intros H. destruct Hn as [-> | ->]; destruct H.
    - intros K. exact (va_points _ _ _ _ K Hn). }
  unfold is at 1. destruct (String.eqb_spec (a_name a) "points") as [He|He]; [|apply acc_ret; contradiction].
  apply (acc_iff _ _ _ (snd (numbers (E := E) (a_val a)) = Ret tt /\ Nat.even (List.length (fst (numbers (E := E) (a_val a)))) = true)).
  - rewrite <- (numbers_iff (a_val a) Nat.even A2). split; [auto|]. intros K. apply K, He.
  - apply acc_points. intros err Herr. rewrite even_mod. destruct (Nat.even _); cbn [negb]; [|apply acc_raise; intros [_ K]; discriminate].
    destruct err; [apply acc_raise; intros [K _]; apply Herr in K; discriminate|apply acc_ret; split; [apply Herr|]; reflexivity].
Qed.
Lemma acc_polygon f attrs : asciis attrs -> acc f f (Forall (valid_attribute E md "polygon") attrs) (polygonF (E := E) attrs).
Proof.
  intros Ha. assert (K : acc f f True (ps <- cPoints (E := E) ;; if 4 <? List.length ps then onCPath (pStop true) else ret tt)).
  { apply acc_calm. intros n l c H. unfold bind, cPoints, gets. revert n l c H. intros n l c H. destruct (4 <? _); [exact (calm_onCPath md f _ n l c H)|exact (calm_ret md f n l c H)]. }
  pose proof (acc_attempt md f f _ _ _ (acc_polyline f "polygon" attrs (or_intror eq_refl) Ha) K) as H.
  intros n l c Hc. destruct (H n l c Hc) as [H1 H2]. assert (Q : polygonF (E := E) attrs c = (err <- attempt (polylineF attrs) ;; (ps <- cPoints ;; if 4 <? List.length ps then onCPath (pStop true) else ret tt) ;; match err with Some e => raise e | None => ret tt end) c).
  { unfold polygonF, bind. destruct (attempt (polylineF attrs) c) as [c1 [err|e| |]]; reflexivity. }
  rewrite Q. auto.
Qed.
Lemma data_ascii s : all_chars is_ascii s = true -> plain_data E (ascii_chars s).
Proof.
  unfold ascii_chars, plain_data. induction s as [|c s IH]; intros H; cbn [list_ascii_of_string map]; [constructor|]. cbn [all_chars] in H. apply andb_prop in H as [Hc Hs].
  apply ascii_small in Hc. constructor; [|exact (IH Hs)]. split; [unfold scalar; lia|]. unfold isNumber, isLetter, decimal_digit, begins_command. rewrite (proj2 (N.ltb_lt _ _) Hc). split; [reflexivity|].
  destruct (N.eqb_spec (N_of_ascii c) 101) as [->|]; [reflexivity|]. cbn [negb]. rewrite andb_true_r, orb_false_r. reflexivity.
Qed.
Lemma acc_path f attrs : asciis attrs -> acc f f (Forall (valid_attribute E md "path") attrs) (pathF (E := E) attrs).
Proof.
  intros Ha. unfold pathF. apply acc_mapM. intros a Hi. inval.
  apply (acc_iff _ _ _ (a_name a = "d"%string -> right_data E md (ascii_chars (a_val a)))).
  { split; [intros K; constructor; [intros []|discriminate|discriminate|intros []; discriminate|intros _; exact K]|]. intros K. exact (va_data _ _ _ _ K eq_refl). }
  unfold is at 1. destruct (String.eqb_spec (a_name a) "d") as [He|He]; [|apply acc_ret; contradiction].
  apply acc_tw; [apply tw_puni, puni_compile|]. intros n l c H.
  pose proof (proj1 (data_accepted (ascii_chars (a_val a)) (c_pc c) (data_ascii _ A2))) as D. rewrite (utf8_ascii _ A2), (j_mode _ _ _ _ _ H) in D.
  unfold liftP. destruct (compilePath (a_val a) (c_pc c)) as [p o]. cbn [snd] in *.
  transitivity (o = Ret tt); [|rewrite D; split; [auto|]; intros K; apply K, He]. unfold rets. split; [intros ([] & ->); reflexivity|]. intros ->. eexists. reflexivity.
Qed.

(** ** Elements *)
Lemma acc_draw f name df attrs : ~ List.In name context_names -> (name = "stop"%string -> snd f = false) -> drawFuncs fuel name = Some df -> asciis attrs -> acc f f (Forall (valid_attribute E md name) attrs) (df attrs).
Proof.
  intros Hn Hf. unfold drawFuncs, drawFunc. intros H Ha.
  assert (T : forall m, List.In name ["g"; "stop"; "desc"; "title"]%string -> calmly md f m -> acc f f (Forall (valid_attribute E md name) attrs) m).
  { intros m Hi K. apply (acc_iff _ _ _ True); [|apply acc_calm, K]. split; [intros _|auto]. apply Forall_forall. intros a _. apply va_len; [intros Q; cbn in Hi, Q; intuition congruence|].
    intros Q. exfalso. cbn in Hi. destruct Hi as [<-|[<-|[<-|[<-|[]]]]]; destruct Q. }
  repeat match type of H with (if String.eqb name ?s then _ else _) = _ => destruct (String.eqb_spec name s) as [->|_]; [injection H as <-; first [exfalso; apply Hn; cbn; tauto|idtac]|] end; try discriminate.
  - apply acc_svg, Ha.
  - apply T; [cbn; tauto|apply calm_ret].
  - apply acc_line, Ha.
  - apply T; [cbn; tauto|]. intros n l c Hc. unfold stopF, bind, gets. rewrite (j_grad _ _ _ _ _ Hc), (Hf eq_refl). exact (calm_ret md f n l c Hc).
  - apply acc_rect, Ha.
  - apply acc_circle; auto.
  - apply acc_circle; auto.
  - apply acc_polyline; auto.
  - apply acc_polygon, Ha.
  - apply acc_path, Ha.
  - apply T; [cbn; tauto|apply calm_desc].
  - apply T; [cbn; tauto|apply calm_title].
  - apply acc_mask, Ha.
Qed.
Lemma unknown_attrs name attrs : ~ List.In name svg_names -> Forall (valid_attribute E md name) attrs.
Proof.
  intros Hn. apply Forall_forall. intros a _. apply va_len; [intros Q; apply Hn; cbn in Q |- *; tauto|]. intros Q. exfalso. unfold lengths_of in Q.
  destruct (List.find _ _) as [[s ls]|] eqn:Hf; [|destruct Q]. apply find_some in Hf as [Hi He]. apply String.eqb_eq in He. cbn [fst] in He. subst s. apply Hn. cbn in Hi |- *.
  intuition (try congruence; match goal with H : (_, _) = (_, _) |- _ => injection H as <- _; tauto end).
Qed.
Theorem start_valid name attrs n l c : ~ List.In name context_names -> asciis attrs -> J out n l c ->
  (rets (snd (stepToken fuel (TStart name attrs) c)) <-> valid_element E md (name, attrs)).
Proof.
  intros Hn Ha Hc. cbn [stepToken].
  assert (P : (pushStyle attrs ;; readStartElement fuel name attrs) c = match pushed attrs c with
    | (c1, Ret st) => readStartElement fuel name attrs (c_set_stack (st :: c_stack c1) c1) | (c1, Err e) => (c1, Err e) | (c1, Panic) => (c1, Panic) | (c1, NoFuel) => (c1, NoFuel) end).
  { unfold bind at 1. rewrite push_eq. unfold bind at 1. destruct (pushed attrs c) as [c1 [st|e| |]]; reflexivity. }
  rewrite P. clear P. destruct (acc_pushed out attrs Ha n l c Hc) as [(l1 & H1) H2]. destruct (pushed attrs c) as [c1 o]. cbn [fst snd] in *.
  assert (R : forall c, J out (S n) l1 c -> (rets (snd (readStartElement fuel name attrs c)) <-> (List.In name svg_names \/ md <> StrictErrorMode) /\ Forall (valid_attribute E md name) attrs)).
  { clear c Hc c1 o H1 H2. intros c H. unfold readStartElement. unfold bind at 1, gets. rewrite (j_defs _ _ _ _ _ H). cbn [fst out andb]. cbv zeta.
    destruct (drawFuncs fuel name) as [df|] eqn:Hd.
    - assert (Hi : List.In name svg_names). { destruct (in_dec string_dec name svg_names) as [Hi|Hi]; [exact Hi|]. apply (known_name (E := E) fuel) in Hi. congruence. }
      pose proof (acc_attempt md out out _ _ _ (acc_draw out name df attrs Hn (fun _ => eq_refl) Hd Ha) (acc_calm md out _ (calm_collect md out)) (S n) l1 c H) as [_ K].
      eapply iff_trans; [exact K|]. tauto.
    - apply known_name in Hd. pose proof (acc_handle md out (cannotProcess name) (S n) l1 c H) as [_ K]. eapply iff_trans; [exact K|]. pose proof (unknown_attrs name attrs Hd). tauto. }
  assert (V : valid_element E md (name, attrs) <-> decls_ok attrs /\ (List.In name svg_names \/ md <> StrictErrorMode) /\ Forall (valid_attribute E md name) attrs).
  { split; [intros []; auto|intros (K1 & K2 & K3); constructor; assumption]. }
  rewrite V, <- H2. destruct o as [st|e| |]; cbn [snd].
  - rewrite (R _ (J_push md out n l1 c1 st H1)). split; [|tauto]. intros K. split; [eexists; reflexivity|exact K].
  - split; [intros (x & Hx); discriminate|intros [(x & Hx) _]; discriminate].
  - split; [intros (x & Hx); discriminate|intros [(x & Hx) _]; discriminate].
  - split; [intros (x & Hx); discriminate|intros [(x & Hx) _]; discriminate].
Qed.
End Accept.
